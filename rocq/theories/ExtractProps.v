(** C71: the text of the tables of a page. *)
From Verif Require Import TreeProof TreeProps ExtractSpec.
From Verif Require DocxModel.
From Coq Require Import String Lia.
Open Scope Z_scope.
Open Scope list_scope.

Lemma visible_app a b : visible (a ++ b) = visible a ++ visible b. Proof. apply filter_app. Qed.
Lemma visible_drop l : visible (drop_while is_white l) = visible l.
Proof. induction l as [|c l IH]; [reflexivity|]. cbn [drop_while]. destruct (is_white c) eqn:E; [|reflexivity]. unfold visible in *. cbn [filter]. rewrite E. exact IH. Qed.
Lemma visible_rev l : visible (rev l) = rev (visible l).
Proof. induction l as [|c l IH]; [reflexivity|]. cbn [rev]. rewrite visible_app, IH. unfold visible. cbn [filter]. destruct (is_white c); cbn [negb rev]; [rewrite app_nil_r|]; reflexivity. Qed.
Lemma visible_strip l : visible (strip l) = visible l.
Proof. unfold strip. rewrite visible_rev, visible_drop, visible_rev, visible_drop, rev_involutive. reflexivity. Qed.
Lemma visible_join l : visible (join 10 l) = flat_map visible l.
Proof.
  induction l as [|x l IH]; [reflexivity|]. cbn [flat_map]. destruct l as [|y l]; [cbn [join flat_map]; rewrite app_nil_r; reflexivity|].
  change (join 10 (x :: y :: l)) with (x ++ 10 :: join 10 (y :: l)). rewrite visible_app. f_equal. unfold visible at 1. cbn [filter]. exact IH.
Qed.
Lemma visible_flat {A} (f : A -> list Z) l : visible (flat_map f l) = flat_map (fun x => visible (f x)) l.
Proof. induction l as [|x l IH]; [reflexivity|]. cbn [flat_map]. rewrite visible_app, IH. reflexivity. Qed.
Lemma flat_map_map {A B C} (f : B -> list C) (g : A -> B) l : flat_map f (map g l) = flat_map (fun x => f (g x)) l.
Proof. induction l as [|x l IH]; [reflexivity|]. cbn. rewrite IH. reflexivity. Qed.
Lemma flat_map_flat {A B C} (f : B -> list C) (g : A -> list B) l : flat_map f (flat_map g l) = flat_map (fun x => flat_map f (g x)) l.
Proof. induction l as [|x l IH]; [reflexivity|]. cbn [flat_map]. rewrite flat_map_app, IH. reflexivity. Qed.
Lemma flat_map_same {A B} (f g : A -> list B) l : (forall x, In x l -> f x = g x) -> flat_map f l = flat_map g l.
Proof. induction l as [|x l IH]; intros H; [reflexivity|]. cbn [flat_map]. rewrite (H x (or_introl eq_refl)), IH; [reflexivity|]. intros y Hy. apply H. right. exact Hy. Qed.
Lemma span_visible s : visible (strip (span_text s)) = visible (text_codes (span_glyphs s)).
Proof.
  rewrite visible_strip. destruct s as [t|id b]; [|reflexivity]. cbn [span_text span_glyphs]. unfold text_codes, ts_text. f_equal. rewrite flat_map_map. cbn. induction (ts_chars t) as [|c l IH]; [reflexivity|]. cbn. rewrite <- IH. reflexivity.
Qed.
Lemma text_visible t : visible (text_text t) = visible (text_codes (line_glyphs (st_lines t))).
Proof.
  unfold text_text. rewrite visible_join, flat_map_map. unfold text_codes, line_glyphs. rewrite flat_map_flat, visible_flat. apply flat_map_same. intros l _.
  unfold line_text, styled. rewrite visible_flat, flat_map_flat, visible_flat. apply flat_map_same. intros s _. apply span_visible.
Qed.

(** One list per table asked for (bordered tables, or all), in the order of the page; as many rows and cells as the table; nothing (None)
    exactly in the places of merged cells that are not their first. *)
Theorem C71_shape extract_stream bs :
  List.length (extract_tables extract_stream bs) = List.length (filter (wanted extract_stream) bs) /\
  forall k b, nth_error (filter (wanted extract_stream) bs) k = Some b ->
    exists t, nth_error (extract_tables extract_stream bs) k = Some t /\ List.length t = List.length (rows_of (snd b)) /\
    forall i h cells, nth_error (rows_of (snd b)) i = Some (h, cells) -> exists row, nth_error t i = Some row /\ List.length row = List.length cells /\
      forall j info v content, nth_error cells j = Some (info, v, content) -> exists s, nth_error row j = Some s /\ (s = None <-> info = None).
Proof.
  assert (E : extract_tables extract_stream bs = map (fun b => table_text (rows_of (snd b))) (filter (wanted extract_stream) bs)).
  { induction bs as [|[l b] bs IH]; [reflexivity|]. cbn [extract_tables flat_map filter]. fold (extract_tables extract_stream bs). rewrite IH. unfold wanted at 2. cbn [fst snd]. destruct b as [t|before rows]; [reflexivity|]. destruct (extract_stream || l); reflexivity. }
  rewrite E. split; [apply map_length|]. intros k b Hk. exists (table_text (rows_of (snd b))). split; [apply (map_nth_error (fun b => table_text (rows_of (snd b)))), Hk|].
  unfold table_text. split; [apply map_length|]. intros i h cells Hi. exists (map cell_text cells). split; [rewrite nth_error_map, Hi; reflexivity|]. split; [apply map_length|].
  intros j info v content Hj. exists (cell_text (info, v, content)). split; [apply (map_nth_error cell_text), Hj|]. destruct info as [b0|]; cbn [cell_text]; split; intros H; (discriminate H || reflexivity).
Qed.
Print Assumptions C71_shape.
(** But for white space, the string of a cell without nested tables is its text, in order. *)
Theorem C71_text info v content s : no_nested (info, v, content) -> cell_text (info, v, content) = Some s -> visible s = visible (text_codes (flat_map sblock_text content)).
Proof.
  intros N E. destruct info as [b|]; [|discriminate]. cbn [cell_text] in E. injection E as <-. rewrite visible_join, flat_map_map. unfold text_codes. rewrite flat_map_flat, visible_flat. apply flat_map_same.
  intros b0 Hb. destruct (N b0 Hb) as (t & ->). apply text_visible.
Qed.
Print Assumptions C71_text.
(** Each line of the page is a line of the string, in order, if there is text and no character is a line break. *)
Lemma lines_join l : l <> [] -> (forall x, In x l -> ~ In 10 x) -> lines_of (join 10 l) = l.
Proof.
  assert (One : forall x, ~ In 10 x -> lines_of x = [x]).
  { induction x as [|c x IH]; intros H; [reflexivity|]. cbn [lines_of]. destruct (Z.eqb_spec c 10) as [->|_]; [exfalso; apply H; left; reflexivity|]. rewrite IH; [reflexivity|]. intros Hx. apply H. right. exact Hx. }
  assert (Two : forall x s, ~ In 10 x -> lines_of (x ++ 10 :: s) = x :: lines_of s).
  { induction x as [|c x IH]; intros s H; [reflexivity|]. cbn [app lines_of]. destruct (Z.eqb_spec c 10) as [->|_]; [exfalso; apply H; left; reflexivity|]. rewrite IH; [reflexivity|]. intros Hx. apply H. right. exact Hx. }
  induction l as [|x l IH]; intros Hne H; [contradiction|]. destruct l as [|y l]; [apply One, H; left; reflexivity|].
  change (join 10 (x :: y :: l)) with (x ++ 10 :: join 10 (y :: l)). rewrite Two by (apply H; left; reflexivity). rewrite IH; [reflexivity|discriminate|]. intros z Hz. apply H. right. exact Hz.
Qed.
Lemma join_flat (ll : list (list (list Z))) : (forall l, In l ll -> l <> []) -> join 10 (map (join 10) ll) = join 10 (List.concat ll).
Proof.
  assert (App : forall a b, a <> [] -> b <> [] -> join 10 (a ++ b) = join 10 a ++ 10 :: join 10 b).
  { induction a as [|x a IH]; intros b Ha Hb; [contradiction|]. destruct a as [|y a]; [destruct b; [contradiction|reflexivity]|].
    change (join 10 ((x :: y :: a) ++ b)) with (x ++ 10 :: join 10 ((y :: a) ++ b)). rewrite IH by (discriminate || exact Hb). change (join 10 (x :: y :: a)) with (x ++ 10 :: join 10 (y :: a)). rewrite <- app_assoc. reflexivity. }
  induction ll as [|l ll IH]; intros H; [reflexivity|]. destruct ll as [|m ll]; [cbn; rewrite app_nil_r; reflexivity|].
  change (join 10 (map (join 10) (l :: m :: ll))) with (join 10 l ++ 10 :: join 10 (map (join 10) (m :: ll))). cbn [List.concat]. rewrite IH by (intros x Hx; apply H; right; exact Hx).
  symmetry. apply App; [apply H; left; reflexivity|]. cbn [List.concat]. intros E. apply app_eq_nil in E. destruct E as (E & _). revert E. apply H. right. left. reflexivity.
Qed.
Theorem C71_lines i v ts s : ts <> [] -> (forall t, In t ts -> st_lines t <> []) -> (forall t l sp, In t ts -> In l (st_lines t) -> In sp (ln_spans l) -> ~ In 10 (span_text sp)) ->
  cell_text (Some i, v, map ST ts) = Some s -> lines_of s = map (fun l => flat_map (fun sp => strip (span_text sp)) (ln_spans l)) (flat_map st_lines ts).
Proof.
  intros Hne Hl Hc E. cbn [cell_text] in E. injection E as <-. rewrite map_map.
  assert (E : map (fun t => block_text (ST t)) ts = map (join 10) (map (fun t => map line_text (st_lines t)) ts)) by (rewrite map_map; reflexivity). rewrite E, join_flat.
  - rewrite <- flat_map_concat_map. assert (E2 : flat_map (fun t => map line_text (st_lines t)) ts = map line_text (flat_map st_lines ts)) by (clear; induction ts as [|t ts IH]; [reflexivity|]; cbn [flat_map]; rewrite map_app, IH; reflexivity).
    rewrite E2. apply lines_join.
    + destruct ts as [|t ts]; [contradiction|]. specialize (Hl t (or_introl eq_refl)). cbn [flat_map]. destruct (st_lines t); [contradiction|]. discriminate.
    + intros x Hx Hin. apply in_map_iff in Hx. destruct Hx as (l & <- & Hx). apply in_flat_map in Hx. destruct Hx as (t & Ht & Hx). unfold line_text in Hin. apply in_flat_map in Hin. destruct Hin as (sp & Hsp & Hin).
      apply (Hc t l sp Ht Hx Hsp). unfold strip in Hin. assert (D : forall l, incl (drop_while is_white l) l).
      { clear. induction l as [|c l IH]; [apply incl_refl|]. cbn [drop_while]. destruct (is_white c); [apply incl_tl, IH|apply incl_refl]. }
      apply in_rev, D, in_rev, D in Hin. exact Hin.
  - intros l Hin. apply in_map_iff in Hin. destruct Hin as (t & <- & Ht). specialize (Hl t Ht). destruct (st_lines t); [contradiction|discriminate].
Qed.
Print Assumptions C71_lines.
(** The same text as in the Word document: but for white space, a table without nested tables has in the document what was
    extracted from its cells, row by row. *)
Theorem C71_as_in_docx before rows tpl sec : regular (STable before rows) -> (forall h cells c, In (h, cells) rows -> In c cells -> no_nested c) ->
  exists body, document_docx tpl [mkSPage sec [STable before rows] []] = Some ([sec], body) /\
    visible (text_codes (flat_map ditem_text body)) = flat_map (fun row => flat_map (fun o => match o with Some s => visible s | None => [] end) row) (table_text rows).
Proof.
  intros R N. destruct (C70_document tpl [mkSPage sec [STable before rows] []]) as (body & E & _ & _ & T & _); [discriminate|intros p b [<-|[]] [<-|[]]; exact R|].
  exists body. split; [exact E|].
  assert (D : map fst (flat_map ditem_text body) = map fst (flat_map ditem_text body)) by reflexivity. clear D.
  assert (One : flat_map ditem_text body = sblock_text (STable before rows)).
  { assert (C : forall l cur, flat_map (fun c => flat_map ditem_text c) (dsections cur l) = flat_map ditem_text (cur ++ l)).
    { clear. induction l as [|d l IH]; intros cur; cbn [dsections flat_map]; [rewrite !app_nil_r; reflexivity|]. destruct (is_section_break d).
      - cbn [flat_map]. rewrite IH. cbn [app]. rewrite <- flat_map_app, <- app_assoc. reflexivity.
      - rewrite IH, <- app_assoc. reflexivity. }
    specialize (C body []). cbn [app] in C. rewrite <- C. inversion T as [|c ? cs ? T1 T2 E1]; subst. inversion T2; subst. cbn [flat_map]. rewrite app_nil_r, T1. cbn [sp_blocks flat_map]. apply app_nil_r. }
  rewrite One. cbn [sblock_text]. unfold text_codes. rewrite flat_map_flat, visible_flat. unfold table_text. rewrite flat_map_map. apply flat_map_same. intros [h cells] Hrow. cbn [snd]. rewrite flat_map_flat, visible_flat, flat_map_map.
  apply flat_map_same. intros [[info v] content] Hc. cbn [snd]. destruct info as [i|].
  - symmetry. apply (C71_text (Some i) v content); [apply (N h cells _ Hrow Hc)|reflexivity].
  - cbn [cell_text]. inversion R as [|? ? nr nc r _ _ (_ & Dv) _ _]; subst. destruct (In_nth_error _ _ Hrow) as (a & Ea). destruct (In_nth_error _ _ Hc) as (b & Eb).
    destruct (proj2 (Dv a h cells Ea) b None v content Eb) as (_ & _ & ->). reflexivity.
Qed.
Print Assumptions C71_as_in_docx.

(* ------------------------------------------------------------------ *)
(** * Concrete tables *)
Definition xt_span (s : string) : span := SText (mkTspan (map (fun c => mkChar c rect0) (codes s)) rect0 [] (mkAttrs 0 10 0 0)).
Definition xt_line (l : list string) : line := mkLine rect0 LEFT_RIGHT (map xt_span l) None false.
Definition xt_text (l : list (list string)) : sblock := ST (mkSText rect0 fresh_para 0 0 10 (map xt_line l) []).
Definition xt_row (a b : list sblock) : sblock := STable (mkTP 0 0 true) [(10%Q, [tr_cell 1 1 a; tr_cell 1 1 b])].
Definition xt_a : list sblock := [xt_text [["ab"]; ["cd "; "ef"]]; xt_text [["g"]]]%string.
Example C71_nonvacuous : extract_tables false [(true, xt_row xt_a [tr_inner]); (false, xt_text [["x"%string]]); (false, xt_row [] [])] =
  [[[Some (join 10 [codes "ab"; codes "cdef"; codes "g"]); Some (codes "<NEST TABLE>")]]] /\
  extract_tables true [(false, tr_outer)] = [[[Some (join 10 [[2]; codes "<NEST TABLE>"; codes "<NEST TABLE>"]); Some [4]]; [None; Some [5]]]].
Proof. split; vm_compute; reflexivity. Qed.
(** Words run together: spaces at the ends of spans (parts of a line with different fonts) are lost. *)
Theorem C71_spaces_refuted : extract_tables false [(true, xt_row [xt_text [["one "; "two"]]]%string [])] = [[[Some (codes "onetwo"); Some []]]]%string.
Proof. vm_compute. reflexivity. Qed.
Print Assumptions C71_spaces_refuted.
