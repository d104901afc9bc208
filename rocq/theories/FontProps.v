(** C59: the font name written to the docx. *)
From Verif Require Import FontModel FontProof.
From Coq Require Import Lia.
From Coq Require Import List.
Import ListNotations.
Open Scope string_scope.

(** The name never contains the subset prefix sign, a style suffix sign or a comma. *)
Theorem C59_charset : forall s, ~ occurs "+" (parse_font s) /\ ~ occurs "-" (parse_font s) /\ ~ occurs "," (parse_font s).
Proof. exact parse_charset. Qed.
Print Assumptions C59_charset.
(** [PREFIX+NAME-STYLE] is NAME when no localised name is known ... *)
Theorem C59_plain_name : forall pre name style, ~ occurs "+" name -> ~ occurs "-" name -> ~ occurs "," name -> ~ occurs "+" style ->
  assoc (font_key name) DICT_FONTS = None ->
  parse_font (pre ++ String "+" (name ++ String "-" style)) = name /\ parse_font (pre ++ String "+" name) = name /\ parse_font name = name.
Proof.
  intros pre name style H1 H2 H3 H4 E. rewrite !parse_core, (parse_subset pre name style) by assumption.
  assert (C : core (pre ++ String "+" name) = name) by (unfold core; rewrite after_last_app by assumption; apply before_first_none; assumption).
  rewrite C, (core_fixed name) by assumption. rewrite E. rewrite replace_none by assumption. auto.
Qed.
Print Assumptions C59_plain_name.
(** ... and the localised name otherwise, whatever the case, blanks and underscores. *)
Theorem C59_localised_name : forall pre name style v, ~ occurs "+" name -> ~ occurs "-" name -> ~ occurs "+" style ->
  assoc (font_key name) DICT_FONTS = Some v ->
  parse_font (pre ++ String "+" (name ++ String "-" style)) = v /\ parse_font (pre ++ String "+" name) = v /\ parse_font name = v.
Proof.
  intros pre name style v H1 H2 H3 E. rewrite !parse_core, (parse_subset pre name style) by assumption.
  assert (C : core (pre ++ String "+" name) = name) by (unfold core; rewrite after_last_app by assumption; apply before_first_none; assumption).
  rewrite C, (core_fixed name) by assumption. rewrite E. auto.
Qed.
Print Assumptions C59_localised_name.
(** Upper and lower case do not matter for the localised name. *)
Theorem C59_key_insensitive : forall s, font_key (upper s) = font_key s.
Proof.
  assert (U : forall x, upper_char (upper_char x) = upper_char x /\
      Ascii.eqb (upper_char x) " " = Ascii.eqb x " " /\ Ascii.eqb (upper_char x) "-" = Ascii.eqb x "-" /\ Ascii.eqb (upper_char x) "_" = Ascii.eqb x "_").
  { intros [[] [] [] [] [] [] [] []]; vm_compute; repeat split; reflexivity. }
  assert (R : forall c, (forall x, Ascii.eqb (upper_char x) c = Ascii.eqb x c) -> forall s, remove_char c (upper s) = upper (remove_char c s)).
  { intros c H. induction s as [|x t IH]; [reflexivity|]. cbn [upper remove_char]. rewrite H, IH. destruct (Ascii.eqb x c); reflexivity. }
  intros s. unfold font_key. rewrite (R " "%char) by (intros x; apply U). rewrite (R "-"%char) by (intros x; apply U).
  rewrite (R "_"%char) by (intros x; apply U). generalize (remove_char "_" (remove_char "-" (remove_char " " s))). intros t.
  induction t as [|x t IH]; [reflexivity|]. cbn [upper]. rewrite IH. f_equal. apply U.
Qed.
Print Assumptions C59_key_insensitive.
(** The key of a name does not depend on the case of any of the 26 letters, nor on blanks, hyphens and
    underscores. *)
Theorem C59_key_letters : forall s t n, (n < 26)%nat ->
  font_key (s ++ String (ascii_of_nat (97 + n)) t) = font_key (s ++ String (ascii_of_nat (65 + n)) t).
Proof.
  intros s t n Hn.
  assert (U : forall x y, upper_char x = upper_char y ->
    Ascii.eqb x " " = Ascii.eqb y " " -> Ascii.eqb x "-" = Ascii.eqb y "-" -> Ascii.eqb x "_" = Ascii.eqb y "_" ->
    font_key (s ++ String x t) = font_key (s ++ String y t)).
  { intros x y E E1 E2 E3. unfold font_key. induction s as [|c s IH]; cbn [append remove_char].
    - rewrite E1. destruct (Ascii.eqb y " "); [reflexivity|]. cbn [remove_char]. rewrite E2. destruct (Ascii.eqb y "-"); [reflexivity|].
      cbn [remove_char]. rewrite E3. destruct (Ascii.eqb y "_"); [reflexivity|]. cbn [upper]. rewrite E. reflexivity.
    - destruct (Ascii.eqb c " "); [exact IH|]. cbn [remove_char]. destruct (Ascii.eqb c "-"); [exact IH|]. cbn [remove_char].
      destruct (Ascii.eqb c "_"); [exact IH|]. cbn [upper]. f_equal. exact IH. }
  do 26 (destruct n as [|n]; [apply U; reflexivity|]). lia.
Qed.
Print Assumptions C59_key_letters.
Theorem C59_key_separators : forall s t c, In c [" "%char; "-"%char; "_"%char] -> font_key (s ++ String c t) = font_key (s ++ t).
Proof.
  intros s t c Hc. unfold font_key. induction s as [|x s IH]; cbn [append remove_char].
  - destruct Hc as [<-|[<-|[<-|[]]]]; reflexivity.
  - destruct (Ascii.eqb x " "); [exact IH|]. cbn [remove_char]. destruct (Ascii.eqb x "-"); [exact IH|]. cbn [remove_char].
    destruct (Ascii.eqb x "_"); [exact IH|]. cbn [upper]. f_equal. exact IH.
Qed.
Print Assumptions C59_key_separators.
(** Parsing a parsed name changes nothing, if the raw name has no comma (this is what
    makes a stored font name survive reading it back), and always from the second time on. *)
Theorem C59_idempotent : forall s, ~ occurs "," s -> parse_font (parse_font s) = parse_font s.
Proof. exact parse_idempotent. Qed.
Print Assumptions C59_idempotent.
Theorem C59_idempotent_later : forall s, parse_font (parse_font (parse_font s)) = parse_font (parse_font s).
Proof. exact parse_parse_idempotent. Qed.
Print Assumptions C59_idempotent_later.
Example C59_nonvacuous :
  parse_font "BCDGEE+Calibri-Bold" = "Calibri" /\ parse_font "ABCDEF+Sim_sun-Bold" = "宋体" /\ parse_font "KoPub Dotum,Light" = "KoPub Dotum Light" /\
  assoc (font_key "Calibri") DICT_FONTS = None /\ assoc (font_key "Sim_sun") DICT_FONTS = Some "宋体".
Proof. vm_compute. repeat split; reflexivity. Qed.
(** A font counts as nameless (and is replaced by Arial) exactly if its name, in capitals, has UNNAMED somewhere in it. *)
Lemma prefixb_iff p : forall s, prefixb p s = true <-> exists b, s = (p ++ b)%string.
Proof.
  induction p as [|a p IH]; intros s; cbn [prefixb append]; [split; [exists s; reflexivity|reflexivity]|]. destruct s as [|c s]; [split; [discriminate|intros (b & E); discriminate E]|].
  rewrite Bool.andb_true_iff, IH. split.
  - intros (E & b & ->). apply Ascii.eqb_eq in E. subst c. exists b. reflexivity.
  - intros (b & E). injection E as -> ->. split; [apply Ascii.eqb_refl|exists b; reflexivity].
Qed.
Theorem C59_unnamed : forall font, unnamed font = true <-> exists a b, upper (parse_font font) = (a ++ "UNNAMED" ++ b)%string.
Proof.
  intros font. unfold unnamed. generalize (upper (parse_font font)). induction s as [|c s IH]; cbn [substrb].
  - rewrite Bool.orb_false_r, prefixb_iff. split; [intros (b & E); exists "", b; exact E|intros (a & b & E); destruct a; [exists b; exact E|discriminate E]].
  - rewrite Bool.orb_true_iff, prefixb_iff, IH. split.
    + intros [(b & E)|(a & b & ->)]; [exists "", b; exact E|exists (String c a), b; reflexivity].
    + intros (a & b & E). destruct a as [|x a]; [left; exists b; exact E|]. injection E as -> ->. right. exists a, b. reflexivity.
Qed.
Print Assumptions C59_unnamed.
Example C59_unnamed_ex : unnamed "ABCDEF+unNamed-T3" = true /\ unnamed "My Unnamed Font" = true /\ unnamed "Arial" = false.
Proof. repeat split; vm_compute; reflexivity. Qed.
(** Finding: with a comma the name can change when parsed again. *)
Theorem C59_comma_refuted : exists s, parse_font (parse_font s) <> parse_font s /\ parse_font s = "Sim Sun".
Proof. exists "Sim,Sun". vm_compute. split; [discriminate|reflexivity]. Qed.
Print Assumptions C59_comma_refuted.
(** Finding: the entry for DFKai-SB (constants.py:43) is never used for that font name,
    because the part after the hyphen is cut off first. *)
Theorem C59_hyphenated_family_refuted : parse_font "DFKai-SB" = "DFKai" /\ In ("DFKAISB", "标楷体") DICT_FONTS.
Proof. split; [vm_compute; reflexivity|]. cbn. tauto. Qed.
Print Assumptions C59_hyphenated_family_refuted.
