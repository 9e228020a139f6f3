(** * C79 for floats and long numerals, C76 for the locales with wrong numbers *)
From Coq Require Import Reals Lia Floats.SpecFloat.
From Flocq Require Import Core IEEE754.BinarySingleNaN.
From Verif Require Import Base F64 SpecR Operands Ast LangId GenRs Json PluralRules Tables Spec Cldr ApiProps GenMeaning Represents
  Conformance ConformanceProps Exclusive FloatConf WrongSpec WrongProps SampleSpec SampleProps.
Open Scope N_scope.

Lemma wrong_exact_f64 how id t pr w x :
  create how id t = Ok pr -> valid64 x -> is_finite_SF x = true -> below_2_53 (SFabs x) ->
  exists d E dd rules c, shortest_decimal d E (SFabs x) /\ (d = 0 \/ d mod 10 <> 0) /\ decimal_of d E dd /\
    In (id, rules) (cldr t) /\ select w pr (InF64 x) = Ok c /\ (cldr_select rules dd c <-> wrong_number t id dd = false).
Proof.
  intros C V F L. destruct (f64_represents x V F L) as (d & E & dd & po & A1 & A2 & A3 & A4 & A5 & A6).
  destruct (wrong_exact how id t pr w (InF64 x) po dd C A5 A6 (numeral_proper _ _ A4)) as (rules & c & B).
  now exists d, E, dd, rules, c.
Qed.
Lemma wrong_exact_f32 how id t pr w x :
  create how id t = Ok pr -> valid32 x -> is_finite_SF x = true -> below_2_53 (SFabs x) ->
  exists d E dd rules c, shortest_decimal32 d E (SFabs x) /\ (d = 0 \/ d mod 10 <> 0) /\ decimal_of d E dd /\
    In (id, rules) (cldr t) /\ select w pr (InF32 x) = Ok c /\ (cldr_select rules dd c <-> wrong_number t id dd = false).
Proof.
  intros C V F L. destruct (f32_represents x V F L) as (d & E & dd & po & A1 & A2 & A3 & A4 & A5 & A6).
  destruct (wrong_exact how id t pr w (InF32 x) po dd C A5 A6 (numeral_proper _ _ A4)) as (rules & c & B).
  now exists d, E, dd, rules, c.
Qed.
Lemma wrong_exact_long how id t pr w s d :
  create how id t = Ok pr -> numeral s d -> d_int d < 2 ^ 53 -> uts_f d < 2 ^ 64 -> fraction_survives d ->
  exists rules c, In (id, rules) (cldr t) /\ select w pr (InStr s) = Ok c /\ (cldr_select rules d c <-> wrong_number t id d = false).
Proof.
  intros C N B1 B2 FS. destruct (long_represents s d N B1 B2 FS) as (po & E & R).
  exact (wrong_exact how id t pr w (InStr s) po d C E R (numeral_proper s d N)).
Qed.

Lemma C76_exact how w t m key rs id name text c d s pr :
  rule_map_of t (cldr_json t) = Some m -> In (key, rs) m -> langid_from_str key = Some id ->
  In (name, text) rs -> named_category name = Some c -> sample text d ->
  numeral s d -> create how id t = Ok pr ->
  exists c', select w pr (InStr s) = Ok c' /\ (c' = c <-> wrong_number t id d = false).
Proof.
  intros M I L J Nm S Nu C. destruct (samples_ok t m key rs id name text c d M I L J Nm S) as (rules & K & O).
  unfold sample_ok in O. apply andb_prop in O as [O _]. apply andb_prop in O as [O Sm]. apply cldr_selectb_iff in O.
  destruct (wrong_exact_str how id t pr w s d C Nu) as (rules' & c' & K' & E & W); [unfold smallb in Sm; split; lia|].
  exists c'. split; [exact E|]. rewrite <- W. assert (rules' = rules) as -> by exact (cldr_unique t id rules' rules K' K).
  split; [intros ->; exact O|]. intro Q. apply (C33_unique t id rules d c' c K); auto. exact (numeral_proper s d Nu).
Qed.
