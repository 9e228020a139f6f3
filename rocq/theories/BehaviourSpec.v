(** * How the shipped rules behave: cycles, trailing zeros, equal rules, categories

    Tables used by the statements of C83-C86.  A locale is written as its usual
    text. *)
From Verif Require Import Base LangId GenRs Spec.
Open Scope string_scope.
Open Scope N_scope.

(** the words of a text; spaces and line ends separate *)
Fixpoint words (s : string) : list string :=
  match s with
  | EmptyString => [EmptyString]
  | String c r =>
      if Ascii.eqb c " "%char || Ascii.eqb c "010"%char then EmptyString :: words r
      else match words r with w :: l => String c w :: l | [] => [String c EmptyString] end
  end.
(** language, script and region of an identifier, joined with hyphens *)
Definition part (o : option bytes) : bytes := match o with Some s => 45 :: s | None => [] end.
Definition text_of_id (id : langid) : bytes :=
  (match li_language id with Some l => l | None => bs "und" end ++ part (li_script id) ++ part (li_region id))%list.
Definition listed (id : langid) (s : string) : bool :=
  existsb (fun w => bytes_eqb (text_of_id id) (bs w)) (words s).

(** ** C83: from the first number on, the category of an integer depends on its
    remainder by the second only; no smaller numbers do *)
Definition cycle_table (t : pr_type) : list (N * N * string) :=
  match t with
  | CARDINAL => [
    (0, 1, "bm bo dz id ig ii in ja jbo jv jw kde kea km ko lkt lo ms my nqo osa sah ses sg su th to vi wo yo yue zh");
    (2, 1, "af ak am an as asa ast az bem bez bg bho bn brx ca ce cgg chr ckb da de dv ee el en eo es et eu fa ff fi fo fr
      fur fy gl gsw gu guw ha haw hi hu hy ia io it jgo ji jmc ka kab kaj kcg kk kkj kl kn ks ksb ksh ku ky lag lb lg
      ln mas mg mgo ml mn mr nah nb nd ne nl nn nnh no nr nso ny nyn om or os pa pap pcm ps pt pt-PT rm rof rwk saq sc
      scn sd sdh seh si sn so sq ss ssy st sv sw syr ta te teo ti tig tk tn tr ts ug ur uz ve vo vun wa wae xh xog yi
      zu");
    (3, 1, "iu naq sat se sma smi smj smn sms");
    (5, 1, "cs sk");
    (7, 1, "cy");
    (11, 1, "ga shi");
    (20, 1, "gd mo mt ro");
    (100, 1, "ar ars tzm");
    (0, 10, "ceb fil tl");
    (11, 10, "he iw");
    (12, 10, "lt");
    (0, 20, "gv");
    (0, 100, "bs dsb hr hsb is mk ru sh sl sr uk");
    (2, 100, "pl");
    (15, 100, "be");
    (20, 100, "lv prg");
    (100, 1000000, "br");
    (20001, 1000000, "kw")]
  | ORDINAL => [
    (0, 1, "af am an ar bg bs ce cs da de dsb el es et eu fa fi fy gl gsw he hr hsb ia id in is iw ja km kn ko ky lt lv ml
      mn my nb nl pa pl prg ps pt ru sd sh si sk sl sr sw ta te th tr ur uz yue zh zu");
    (2, 1, "fil fr ga hy lo mo ms ro tl vi");
    (5, 1, "ca mr ne");
    (6, 1, "hu");
    (7, 1, "gu hi");
    (10, 1, "cy or");
    (11, 1, "as bn");
    (14, 1, "gd");
    (801, 1, "it sc scn");
    (1, 10, "kk");
    (11, 10, "tk");
    (0, 100, "be en mk sv uk");
    (2, 100, "ka sq");
    (85, 100, "kw");
    (1, 1000, "az")]
  end.
Definition cycle (t : pr_type) (id : langid) : option (N * N) :=
  option_map fst (List.find (fun '(_, s) => listed id s) (cycle_table t)).

(** ** C84: locales where two spellings of one value can differ *)
Definition spelling_matters (t : pr_type) : string :=
  match t with
  | CARDINAL =>
"ast bs ca ceb cs de dsb en et fi fil fy gl gv he hr hsb ia io it iw ji lv mk mo nl pl prg pt-PT ro ru sc scn sh si sk
      sl sr sv sw tl uk ur yi"
  | ORDINAL => ""
  end.
(** the decimals denote one number *)
Definition same_value (d d' : decimal) : Prop := uts_num d * uts_den d' = uts_num d' * uts_den d.
(** the conversion keeps the integer part (see C06) *)
Definition keeps_integer (d : decimal) : Prop := uts_v d <> 0 \/ uts_i d <= 2 ^ 53.

(** ** C85: locales on one line have the same rule *)
Definition classes (t : pr_type) : list string :=
  match t with
  | CARDINAL => [
"af an asa az bem bez bg brx ce cgg chr ckb dv ee el eo es eu fo fur gsw ha haw hu jgo jmc ka kaj kcg kk kkj kl ks ksb
      ku ky lb lg mas mgo ml mn mr nah nb nd ne nn nnh no nr ny nyn om or os pap ps rm rof rwk saq sd sdh seh sn so sq
      ss ssy st syr ta te teo tig tk tn tr ts ug uz ve vo vun wae xh xog";
    "ak bho guw ln mg nso pa ti wa";
    "am as bn fa gu hi kn pcm zu";
    "ar ars";
    "ast ca de en et fi fy gl ia io it ji nl pt-PT sc scn sv sw ur yi";
    "be";
    "bm bo dz id ig ii in ja jbo jv jw kde kea km ko lkt lo ms my nqo osa sah ses sg su th to vi wo yo yue zh";
    "br";
    "bs hr sh sr";
    "ceb fil tl";
    "cs sk";
    "cy";
    "da";
    "dsb hsb";
    "ff fr hy kab pt";
    "ga";
    "gd";
    "gv";
    "he iw";
    "is";
    "iu naq sat se sma smi smj smn sms";
    "ksh";
    "kw";
    "lag";
    "lt";
    "lv prg";
    "mk";
    "mo ro";
    "mt";
    "pl";
    "ru uk";
    "shi";
    "si";
    "sl";
    "tzm"]
  | ORDINAL => [
"af am an ar bg bs ce cs da de dsb el es et eu fa fi fy gl gsw he hr hsb ia id in is iw ja km kn ko ky lt lv ml mn my
      nb nl pa pl prg ps pt ru sd sh si sk sl sr sw ta te th tr ur uz yue zh zu";
    "as bn";
    "az";
    "be";
    "ca";
    "cy";
    "en";
    "fil fr ga hy lo mo ms ro tl vi";
    "gd";
    "gu hi";
    "hu";
    "it sc scn";
    "ka";
    "kk";
    "kw";
    "mk";
    "mr";
    "ne";
    "or";
    "sq";
    "sv";
    "tk";
    "uk"]
  end.
Definition same_class (t : pr_type) (a b : langid) : bool :=
  existsb (fun s => listed a s && listed b s) (classes t).

(** ** C86: categories that no integer gets, although the locale has them *)
Definition never_for_integers (t : pr_type) (id : langid) (c : category) : bool :=
  match t, c with
  | CARDINAL, MANY => listed id "cs gv lt sk"
  | CARDINAL, OTHER => listed id "pl ru uk"
  | _, _ => false
  end.
