(** C88: [convert] from the raw pages of a pdf, by any selection of pages, to the docx. *)
From Verif Require GeomProof TextProof.
From Verif Require Import AssignSpec AssignProof PySort FlowModel FlowSpec LayoutSpec LayoutProps TreeSpec TreeProof TreeProof3 TreeProof5 TreeProof6 TreeProps.
From Verif Require Import CleanSpec CleanProof2 CleanProps.
From Verif Require Import CleanModel CleanSpec FlowModel FlowSpec LayoutModel WholeModel WholeSpec.
From Verif Require Import WholeProps.
From Verif Require DocxModel PageModel ShapeModel ConverterModel ConverterProof ConverterSpec.
From Verif Require Import TabSpec GridProps TabProof11 TabProps PicProps ColProps HeadProps.
From Verif Require Import GridSpec CleanModel MixModel MixProof MixSpec TreeSpec WholeSpec.
From Coq Require Import Lia Lqa Permutation Sorting.Sorted.
Notation length := List.length.
Open Scope Q_scope.

(** A pdf of any pages, of which some are selected. Each page selected is one of paragraphs and pictures, or one with a ruled table,
    or one in two columns (with paragraphs above and below them), or it cannot be parsed. If any can, the docx has one section for each page selected that is parsed, in the order
    of the pdf (not that of the selection) with its size and margins, and nothing else: that section shows what is on the page - its
    paragraphs, pictures and its table, in order, whatever is on the other pages. *)
Theorem C88_convert order rorder ids pm fuel tpl rs start end_ pages plans : (forall l, Permutation l (order l)) ->
  1 # 1000000 < p_line_overlap pm -> 0 < p_float_layout pm -> 0 <= p_image_gap pm ->
  let sel := ConverterModel.page_indexes start end_ pages (Z.of_nat (length rs)) in
  let seen := to_show (length rs) sel plans in
  sel <> [] -> seen <> [] ->
  (forall i r, In (Z.of_nat i) sel -> nth_error rs i = Some r ->
    match plans i with Some x => fits order pm r x | None => forall p, parse_page order rorder ids pm (S (S fuel)) r <> Ok p end) ->
  exists secs body, convert_docx order rorder ids pm (S (S fuel)) tpl rs start end_ pages = Some (secs, body) /\
    Forall2 (fun ix s => exists r c, nth_error rs (fst ix) = Some r /\ clean_page order pm r = Some c /\ s = page_section r (page_margin pm r c)) seen secs /\
    Forall2 (fun ix content => exists r, nth_error rs (fst ix) = Some r /\ shows_plan r (snd ix) content) seen (dsections [] body) /\
    (exists kss, flat_map floats_of body = concat kss /\ Forall2 (fun ix ks => exists fl, Permutation fl (on_text (snd ix)) /\ Forall2 is_picture fl ks) seen kss) /\ well_formed body.
Proof.
  intros Ho T Tf Gp sel seen Hs Ne Fit. destruct (converted_pages order rorder ids pm fuel tpl rs start end_ pages plans Ho T Tf Gp Hs Fit Ne) as (ps & rxs & E & Np & F1 & F2). fold sel seen in F1.
  destruct (document_of_plans order pm tpl rxs ps Np F2) as (secs & body & D & A & B & (kss & K1 & K2) & W). exists secs, body. rewrite E. split; [exact D|]. clear - F1 A B K1 K2 W.
  split; [|split; [|split; [exists kss; split; [exact K1|]|exact W]]].
  - clear - F1 A. revert secs A. induction F1 as [|ix rx l rxs (N & _) F1 IH]; intros secs A; inversion A as [|? s ? secs' (c & C1 & C2) A']; subst; constructor; [exists (fst rx), c; repeat split; assumption|apply IH, A'].
  - clear - F1 B. revert B. generalize (dsections [] body). induction F1 as [|ix rx l rxs (N & X) F1 IH]; intros cs B; inversion B as [|? s ? cs' C1 B']; subst; constructor; [exists (fst rx); split; [exact N|rewrite <- X; exact C1]|apply IH, B'].
  - clear - F1 K2. revert kss K2. induction F1 as [|ix rx l rxs (N & X) F1 IH]; intros kss B; inversion B as [|? s ? cs' C1 B']; subst; constructor; [rewrite <- X; exact C1|apply IH, B'].
Qed.
Print Assumptions C88_convert.
(** If no page selected can be parsed, the conversion raises: no docx. *)
Theorem C88_nothing order rorder ids pm fuel tpl rs start end_ pages plans : (forall l, Permutation l (order l)) ->
  1 # 1000000 < p_line_overlap pm -> 0 < p_float_layout pm -> 0 <= p_image_gap pm ->
  let sel := ConverterModel.page_indexes start end_ pages (Z.of_nat (length rs)) in
  sel <> [] -> to_show (length rs) sel plans = [] ->
  (forall i r, In (Z.of_nat i) sel -> nth_error rs i = Some r ->
    match plans i with Some x => fits order pm r x | None => forall p, parse_page order rorder ids pm (S (S fuel)) r <> Ok p end) ->
  convert_docx order rorder ids pm (S (S fuel)) tpl rs start end_ pages = None.
Proof. intros Ho T Tf Gp sel Hs Ne Fit. apply (nothing_converted order rorder ids pm fuel tpl rs start end_ pages plans Ho T Tf Gp Hs Fit Ne). Qed.
Print Assumptions C88_nothing.

(* ------------------------------------------------------------------ *)
(** * A concrete document *)
(** Four pages: paragraphs with a floating picture, anything (not selected), a ruled table, two columns with a heading and a note. The pages 3, 2 and 0 are selected, in
    that order: the docx has three sections, that of page 0 first. *)
Definition mx_pdf (any : rawpage) : list rawpage := [pc_page; any; tb_page; he_page 20 15].
Definition mx_plans (i : nat) : option plan :=
  match i with
  | 0%nat => Some (Stacked [wh_head; wh_body; pc_plate; pc_foot] [pc_over])
  | 2%nat => Some (Ruled tb_grid tb_tiles [wh_head] tb_cells [tb_foot])
  | 3%nat => Some (Columns [he_head 20 15] [co_a; co_b] [co_c; co_d] [he_note])
  | _ => None
  end.
Example C88_convert_nonvacuous any :
  let sel := ConverterModel.page_indexes 0 None [3; 2; 0; 7]%Z (Z.of_nat (length (mx_pdf any))) in
  sel = [3; 2; 0]%Z /\ map fst (to_show 4 sel mx_plans) = [0; 2; 3]%nat /\
  (forall i r, In (Z.of_nat i) sel -> nth_error (mx_pdf any) i = Some r ->
    match mx_plans i with Some x => fits wh_order default_params r x | None => forall p, parse_page wh_order (fun l => l) S default_params 3 r <> Ok p end).
Proof.
  cbv zeta. assert (E : ConverterModel.page_indexes 0 None [3; 2; 0; 7]%Z (Z.of_nat (length (mx_pdf any))) = [3; 2; 0]%Z) by reflexivity. rewrite E. split; [reflexivity|]. split; [reflexivity|].
  intros i r Hi Hr. destruct C85_pictures_nonvacuous as (P & _). destruct C76_nonvacuous as (Q1 & Q2 & Q3 & _).
  destruct C91_nonvacuous as (R1 & R2 & _). assert (R3 : 0 <= p_line_merging default_params) by (vm_compute; discriminate).
  destruct Hi as [Hi|[Hi|[Hi|[]]]].
  - assert (i = 3%nat) as -> by lia. cbn [mx_pdf nth_error] in Hr. injection Hr as <-. cbn [mx_plans fits]. split; [exact R3|]. split; [exact R1|]. intros c Ec. destruct (R2 c Ec) as (H1 & H2 & _ & H3). split; [exact H1|]. split; [exact H2|exact H3].
  - assert (i = 2%nat) as -> by lia. cbn [mx_pdf nth_error] in Hr. injection Hr as <-. cbn [mx_plans fits]. split; [exists 15; exact Q1|]. split; [exact Q2|exact Q3].
  - assert (i = 0%nat) as -> by lia. cbn [mx_pdf nth_error] in Hr. injection Hr as <-. exact P.
Qed.
(** What the docx shows, computed; [any] is empty here. *)
Example C88_convert_computed : exists secs body,
  convert_docx wh_order (fun l => l) S default_params 3 (DocxModel.mkSection 1 1 []) (mx_pdf (mkRaw 100 100 [] [])) 0 None [3; 2; 0; 7]%Z = Some (secs, body) /\
  length secs = 3%nat /\
  map (fun content => tb_letters (flat_map entry content)) (dsections [] body) = [[Some [65]; Some [66; 67; 68]; Some [0]; Some [69]]; [Some [65]; None; Some [76]]; [Some [81]; None; Some [82; 83]]]%Z /\ flat_map floats_of body = [7%nat].
Proof. do 2 eexists. split; [vm_compute; reflexivity|]. split; [reflexivity|]. split; vm_compute; reflexivity. Qed.
