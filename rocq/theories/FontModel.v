(** Model of the font name of a text span: TextSpan.font (text/TextSpan.py:66-87) and
    constants.DICT_FONTS (common/constants.py:35-63).  Strings are UTF-8 byte
    sequences.  Simplification: [str.upper] changes ASCII letters only (CJK
    characters have no case). *)
From Coq Require Export String Ascii.
From Coq Require Import List Bool NArith.
Import ListNotations.
Open Scope string_scope.

(** [s.split(c)[-1]]. *)
Fixpoint after_last (c : ascii) (s : string) : string :=
  match s with
  | EmptyString => EmptyString
  | String x t => if existsb (Ascii.eqb c) (list_ascii_of_string t) then after_last c t
                  else if Ascii.eqb x c then t else s
  end.
(** [s.split(c)[0]]. *)
Fixpoint before_first (c : ascii) (s : string) : string :=
  match s with
  | EmptyString => EmptyString
  | String x t => if Ascii.eqb x c then EmptyString else String x (before_first c t)
  end.
(** [s.replace(c, '')]. *)
Fixpoint remove_char (c : ascii) (s : string) : string :=
  match s with
  | EmptyString => EmptyString
  | String x t => if Ascii.eqb x c then remove_char c t else String x (remove_char c t)
  end.
(** [s.replace(c, d)] for characters. *)
Fixpoint replace_char (c d : ascii) (s : string) : string :=
  match s with
  | EmptyString => EmptyString
  | String x t => String (if Ascii.eqb x c then d else x) (replace_char c d t)
  end.
Definition upper_char (x : ascii) : ascii :=
  let n := N_of_ascii x in if (97 <=? n)%N && (n <=? 122)%N then ascii_of_N (n - 32) else x.
Fixpoint upper (s : string) : string :=
  match s with EmptyString => EmptyString | String x t => String (upper_char x) (upper t) end.

(** constants.py:35-63. *)
Definition DICT_FONTS : list (string * string) :=
  [("SIMSUN", "宋体"); ("SIMHEI", "黑体"); ("MICROSOFTYAHEI", "微软雅黑"); ("MICROSOFTJHENGHEI", "微软正黑体");
   ("NSIMSUN", "新宋体"); ("PMINGLIU", "新细明体"); ("MINGLIU", "细明体"); ("DFKAISB", "标楷体");
   ("FANGSONG", "仿宋"); ("KAITI", "楷体"); ("FANGSONGGB2312", "仿宋_GB2312"); ("KAITIGB2312", "楷体_GB2312");
   ("LISU", "隶书"); ("YOUYUAN", "幼圆"); ("STXIHEI", "华文细黑"); ("STKAITI", "华文楷体"); ("STSONG", "华文宋体");
   ("STZHONGSONG", "华文中宋"); ("STFANGSONG", "华文仿宋"); ("FZSHUTI", "方正舒体"); ("FZYAOTI", "方正姚体");
   ("STCAIYUN", "华文彩云"); ("STHUPO", "华文琥珀"); ("STLITI", "华文隶书"); ("STXINGKAI", "华文行楷");
   ("STXINWEI", "华文新魏"); ("ARIALNARROW", "Arial Narrow")].
Fixpoint assoc {A} (k : string) (l : list (string * A)) : option A :=
  match l with [] => None | (k', v) :: t => if String.eqb k k' then Some v else assoc k t end.
(** TextSpan.py:81: normalised key. *)
Definition font_key (s : string) : string := upper (remove_char "_" (remove_char "-" (remove_char " " s))).
(** TextSpan.py:77-87. *)
Definition parse_font (s : string) : string :=
  let name := before_first "-" (after_last "+" s) in
  let name := match assoc (font_key name) DICT_FONTS with Some v => v | None => name end in
  replace_char "," " " name.
(** TextSpan.py:63: ['UNNAMED' in self.font.upper()]. *)
Fixpoint prefixb (p s : string) : bool :=
  match p, s with
  | EmptyString, _ => true
  | String a p', String b s' => Ascii.eqb a b && prefixb p' s'
  | _, _ => false
  end.
Fixpoint substrb (p s : string) : bool :=
  prefixb p s || match s with EmptyString => false | String _ t => substrb p t end.
Definition unnamed (font : string) : bool := substrb "UNNAMED" (upper (parse_font font)).
