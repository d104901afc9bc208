(** Lemmas of C81: where the text of a page is cut off. *)
From Verif Require Import CutSpec ParaSpec TreeProof TreeProof2 TreeProof3 WordProof WordProof2 WordProof3 WordProps RunProps.
From Verif Require DocxModel DocxSpec DocxProof DocxProps FailModel.
From Coq Require Import Lia Lqa.
Open Scope nat_scope.

Lemma until_app {A} (l1 l2 : list (A * bool)) :
  until (l1 ++ l2) = if snd (until l1) then (fst (until l1) ++ fst (until l2), snd (until l2)) else until l1.
Proof.
  induction l1 as [|[a ok] t IH]; [cbn; destruct (until l2); reflexivity|]. cbn [app until]. destruct ok; [|reflexivity]. rewrite IH.
  destruct (until t) as [r o]. cbn [fst snd]. destruct o; reflexivity.
Qed.
Lemma until_firstn {A} (l : list (A * bool)) : fst (until l) = firstn (List.length (fst (until l))) (map fst l).
Proof. induction l as [|[a ok] t IH]; [reflexivity|]. cbn [until]. destruct ok; [|reflexivity]. destruct (until t) as [r o]. cbn [fst snd List.length map firstn] in *. f_equal. exact IH. Qed.
Lemma until_true {A} (l : list (A * bool)) : snd (until l) = true -> fst (until l) = map fst l /\ forall x, In x l -> snd x = true.
Proof.
  induction l as [|[a ok] t IH]; intros E; [split; [reflexivity|intros x []]|]. cbn [until] in *. destruct ok; [|discriminate E]. destruct (until t) as [r o]. cbn [fst snd map] in *. destruct (IH E) as (A1 & A2).
  split; [f_equal; exact A1|]. intros x [<-|H]; [reflexivity|exact (A2 x H)].
Qed.
Lemma until_false {A} (l : list (A * bool)) : snd (until l) = false -> fst (until l) <> [].
Proof. destruct l as [|[a ok] t]; [discriminate|]. cbn [until]. destruct ok; [destruct (until t)|]; cbn; intros _ N; discriminate N. Qed.
Lemma until_in {A} (l : list (A * bool)) a : In a (fst (until l)) -> exists ok, In (a, ok) l.
Proof.
  induction l as [|[x ok] t IH]; [intros []|]. cbn [until]. destruct ok; [destruct (until t) as [r o]; cbn [fst] in *; intros [<-|H]; [exists true; left; reflexivity|destruct (IH H) as (k & K); exists k; right; exact K]|].
  intros [<-|[]]. exists false. left. reflexivity.
Qed.

Section Cut.
Variables (names uris : nat -> list Z).
Notation su := (shows_until names).
Lemma su_nil : su [] [] true.
Proof. apply all_shown; [intros s []|reflexivity]. Qed.
Lemma styled_two a b : styled (a ++ b) = styled a ++ styled b.
Proof. unfold styled. apply flat_map_app. Qed.
Lemma su_app_true l1 t1 l2 t2 ok : su l1 t1 true -> su l2 t2 ok -> su (l1 ++ l2) (t1 ++ t2) ok.
Proof.
  intros H1 H2. inversion H1 as [W1 E1|]; subst. inversion H2 as [W2 E2|a t b part rest E W U E2 Er Lg]; subst.
  - apply all_shown; [intros s Hs; apply in_app_or in Hs; destruct Hs as [Hs|Hs]; [exact (W1 s Hs)|exact (W2 s Hs)]|]. rewrite styled_two. reflexivity.
  - apply (cut_off _ _ _ (l1 ++ a) t b part rest); [rewrite <- app_assoc; reflexivity| |exact U|rewrite styled_two, <- app_assoc; reflexivity|exact Er|exact Lg].
    intros s Hs. apply in_app_or in Hs. destruct Hs as [Hs|Hs]; [exact (W1 s Hs)|exact (W s Hs)].
Qed.
Lemma su_app_false l1 t1 l2 : su l1 t1 false -> su (l1 ++ l2) t1 false.
Proof.
  intros H. inversion H as [|a t b part rest E W U E2 Er Lg]; subst. apply (cut_off _ _ _ a t (b ++ l2) part rest); auto. rewrite <- app_assoc. reflexivity.
Qed.
Lemma su_until {X A} (f : X -> A * bool) (sp : X -> list span) (tx : A -> list (glyph * list style)) xs :
  (forall x, In x xs -> su (sp x) (tx (fst (f x))) (snd (f x))) -> su (flat_map sp xs) (flat_map tx (fst (until (map f xs)))) (snd (until (map f xs))).
Proof.
  induction xs as [|x xs IH]; intros H; [apply su_nil|]. pose proof (H x (or_introl eq_refl)) as Hx. specialize (IH (fun y Hy => H y (or_intror Hy))).
  cbn [map until flat_map]. destruct (f x) as [a ok]. cbn [fst snd] in Hx. destruct ok.
  - destruct (until (map f xs)) as [r o]. cbn [fst snd flat_map] in *. apply su_app_true; assumption.
  - cbn [fst snd flat_map]. rewrite app_nil_r. apply su_app_false, Hx.
Qed.

(* ---------------- runs ---------------- *)
Lemma added_prefix cs : forall seen, exists rest, seen ++ cs = added_text seen cs ++ rest.
Proof.
  induction cs as [|c t IH]; intros seen; cbn [added_text]; [exists []; reflexivity|].
  destruct (negb _); [exists (seen ++ c :: t); reflexivity|]. destruct (_ || _).
  - destruct (IH []) as (rest & E). exists rest. rewrite <- app_assoc. cbn [app] in *. rewrite <- E. reflexivity.
  - destruct (IH (seen ++ [c])) as (rest & E). exists rest. rewrite <- E, <- app_assoc. reflexivity.
Qed.
Lemma left_prefix t : exists rest, styled [SText t] = styled (item_spans (left_of t)) ++ rest.
Proof.
  unfold left_of. destruct (forallb _ _); [exists []; rewrite app_nil_r; reflexivity|]. destruct (existsb _ _); [exists (styled [SText t]); reflexivity|].
  destruct (added_prefix (ts_chars t) []) as (rest & E). cbn [app] in E. unfold item_spans, styled. cbn [flat_map app]. rewrite !app_nil_r. cbn [span_glyphs with_chars ts_chars ts_attrs ts_style].
  eexists. rewrite E at 1. rewrite map_app. reflexivity.
Qed.
Lemma added_legal cs : forall seen, (forall c, In c seen -> xml_char (ch_c c) = true) -> forall c, In c (added_text seen cs) -> xml_char (ch_c c) = true.
Proof.
  induction cs as [|x t IH]; intros seen H c Hc; cbn [added_text] in Hc; [exact (H c Hc)|]. destruct (xml_char (ch_c x)) eqn:Ex; cbn [negb] in Hc; [|destruct Hc]. destruct (_ || _).
  - apply in_app_or in Hc. destruct Hc as [Hc|[<-|Hc]]; [exact (H c Hc)|exact Ex|]. refine (IH [] _ c Hc). intros y [].
  - refine (IH (seen ++ [x]) _ c Hc). intros y Hy. apply in_app_or in Hy. destruct Hy as [Hy|[<-|[]]]; [exact (H y Hy)|exact Ex].
Qed.
Lemma left_legal t g : In g (styled (item_spans (left_of t))) -> legal g.
Proof.
  assert (K : forall cs, (forall c, In c cs -> xml_char (ch_c c) = true) -> In g (styled [SText (with_chars t cs)]) -> legal g).
  { intros cs H Hg. unfold styled in Hg. cbn [flat_map span_glyphs with_chars ts_chars] in Hg. rewrite app_nil_r in Hg. apply in_map_iff in Hg. destruct Hg as (c & <- & Hc). exact (H c Hc). }
  unfold left_of. destruct (forallb xml_char (ts_text t)) eqn:E.
  - intros Hg. apply (K (ts_chars t)); [|destruct t; exact Hg]. intros c Hc. rewrite forallb_forall in E. apply E. unfold ts_text. apply in_map, Hc.
  - destruct (existsb _ _); [intros []|]. apply K. apply added_legal. intros c [].
Qed.
Lemma span_cases t : usual (SText t) -> match write_span names uris t with Some _ => ~ unwritable names t | None => unwritable names t end.
Proof.
  intros (S & C). pose proof (C72_fails names uris t C S) as F. unfold unwritable. destruct (write_span names uris t); [|apply F; reflexivity].
  intros H. apply F in H. discriminate H.
Qed.
Lemma items_cut l : (forall s, In s (item_spans l) -> usual s) -> su (item_spans l) (styled (item_spans (fst (items_try names uris l)))) (snd (items_try names uris l)).
Proof.
  induction l as [|i r IH]; intros U; [apply su_nil|].
  assert (Ur : forall s, In s (item_spans r) -> usual s) by (intros s Hs; apply U; unfold item_spans in *; cbn [flat_map]; apply in_or_app; right; exact Hs). specialize (IH Ur).
  assert (Step : forall a, su (item_spans [i]) a true -> su (item_spans (i :: r)) (a ++ styled (item_spans (fst (items_try names uris r)))) (snd (items_try names uris r))).
  { intros a Ha. change (item_spans (i :: r)) with (item_spans ([i] ++ r)). rewrite item_app. apply su_app_true; assumption. }
  assert (Fin : su (item_spans [i]) (styled (item_spans [i])) true -> su (item_spans (i :: r)) (styled (item_spans (i :: fst (items_try names uris r)))) (snd (items_try names uris r))).
  { intros H. specialize (Step _ H). change (item_spans (i :: fst (items_try names uris r))) with (item_spans ([i] ++ fst (items_try names uris r))). rewrite item_app, styled_two. exact Step. }
  cbn [items_try]. destruct i as [s| |].
  - destruct s as [t|id b].
    + pose proof (span_cases t (U (SText t) (or_introl eq_refl))) as W. destruct (write_span names uris t) as [w|].
      * destruct (items_try names uris r) as [ws ok]. cbn [fst snd] in *. apply Fin. apply all_shown; [intros s [<-|[]]; exact W|reflexivity].
      * cbn [fst snd]. destruct (left_prefix t) as (rest & E). apply (cut_off _ _ _ [] t (item_spans r) (styled (item_spans (left_of t))) rest); [reflexivity|intros s []|exact W|reflexivity|exact E|apply left_legal].
    + destruct (items_try names uris r) as [ws ok]. cbn [fst snd] in *. apply Fin. apply all_shown; [intros s [<-|[]]; exact I|reflexivity].
  - destruct (items_try names uris r) as [ws ok]. cbn [fst snd] in *. apply Fin. apply all_shown; [intros s []|reflexivity].
  - destruct (items_try names uris r) as [ws ok]. cbn [fst snd] in *. apply Fin. apply all_shown; [intros s []|reflexivity].
Qed.
Lemma text_cut t : (forall s, In s (spans_of (ST t)) -> usual s) -> su (spans_of (ST t)) (made_text (fst (text_try names uris t))) (snd (text_try names uris t)).
Proof.
  intros U. unfold text_try. assert (E : item_spans (wp_items (text_docx t)) = spans_of (ST t)) by (unfold text_docx, make_paragraph; cbn [wp_items]; apply write_spans).
  pose proof (items_cut (wp_items (text_docx t))) as H. rewrite E in H. specialize (H U). destruct (items_try names uris (wp_items (text_docx t))) as [ws ok]. exact H.
Qed.
(** Nothing is changed if all can be written. *)
Lemma items_all l : snd (items_try names uris l) = true -> fst (items_try names uris l) = l.
Proof.
  induction l as [|i r IH]; [reflexivity|]. cbn [items_try]. destruct i as [[t|id b]| |]; [destruct (write_span names uris t); [|discriminate]|..]; destruct (items_try names uris r) as [ws ok]; cbn [fst snd] in *; intros E; rewrite (IH E); reflexivity.
Qed.
Lemma text_all t : snd (text_try names uris t) = true -> fst (text_try names uris t) = MText (text_docx t).
Proof.
  unfold text_try. pose proof (items_all (wp_items (text_docx t))) as H. destruct (items_try names uris (wp_items (text_docx t))) as [ws ok]. cbn [fst snd] in *. intros E. rewrite (H E).
  f_equal. unfold text_docx, make_paragraph. cbn [wp_align wp_before wp_after wp_line wp_left wp_right wp_first wp_stops wp_items]. f_equal.
  set (L := write_lines _ _ _ _ _ _). assert (Es : item_spans L = flat_map ln_spans (st_lines t)) by apply write_spans. clearbody L.
  transitivity (forallb (fun s => negb (is_picture s)) (item_spans L)).
  - clear. induction L as [|i l IH]; [reflexivity|]. change (item_spans (i :: l)) with (item_spans ([i] ++ l)). rewrite item_app, forallb_app. cbn [forallb]. rewrite IH. destruct i; cbn; rewrite ?andb_true_r; reflexivity.
  - rewrite Es. clear. induction (st_lines t) as [|l ls IH]; [reflexivity|]. cbn [flat_map forallb]. rewrite forallb_app, IH. reflexivity.
Qed.
End Cut.
