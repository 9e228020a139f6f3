(** * Properties C79, C80: exactly which numbers get a wrong category; pointer width and the rule parser

    [wrong_number] is in WrongSpec.v: a closed description of the numbers, locale
    by locale.  [W32] and [W64] are the widths of [usize]. *)
From Coq Require Import Reals Floats.SpecFloat.
From Flocq Require Import Core IEEE754.BinarySingleNaN.
From Verif Require Import Base F64 SpecR LangId Json GenRs Operands Ast CldrParser Grammar Spec Cldr PluralRules Tables ApiProps
  Conformance ConformanceProps WrongSpec WrongProps PtrWidth FloatConf WrongFloat.
Open Scope N_scope.

Ltac solve_numeral sg i f :=
  exists sg, i, f; split; [first [now left|now right]|];
  split; [repeat constructor; unfold digit_char; easy|]; split; [easy|];
  split; [repeat constructor; unfold digit_char; easy|]; split; reflexivity.

(** C79 *)
Theorem C79_wrong_exactly how id t pr w s d :
  create how id t = Ok pr -> numeral s d -> small d ->
  exists rules c, In (id, rules) (cldr t) /\ select w pr (InStr s) = Ok c /\
    (cldr_select rules d c <-> wrong_number t id d = false).
Proof. exact (wrong_exact_str how id t pr w s d). Qed.
Print Assumptions C79_wrong_exactly.
Theorem C79_wrong_exactly_u64 how id t pr w x :
  create how id t = Ok pr -> x < 2 ^ 64 ->
  exists rules c, In (id, rules) (cldr t) /\ select w pr (InUnsigned x) = Ok c /\
    (cldr_select rules (mkDecimal x []) c <-> wrong_number t id (mkDecimal x []) = false).
Proof. exact (wrong_exact_unsigned how id t pr w x). Qed.
Print Assumptions C79_wrong_exactly_u64.
Theorem C79_wrong_exactly_i64 how id t pr z :
  create how id t = Ok pr -> (Z.abs z < 2 ^ 63)%Z ->
  exists rules c, In (id, rules) (cldr t) /\ select W64 pr (InSigned z) = Ok c /\
    (cldr_select rules (mkDecimal (Z.to_N (Z.abs z)) []) c <->
     wrong_number t id (mkDecimal (Z.to_N (Z.abs z)) []) = false).
Proof. exact (wrong_exact_signed how id t pr z). Qed.
Print Assumptions C79_wrong_exactly_i64.
Example C79_integer_case : exists pr, create LeftRight (lang "lt") CARDINAL = Ok pr /\
  wrong_number CARDINAL (lang "lt") (mkDecimal 111 []) = true /\ select W64 pr (InUnsigned 111) = Ok ONE /\
  select W64 pr (InSigned (-111)) = Ok ONE /\
  wrong_number CARDINAL (lang "lt") (mkDecimal 11 []) = false /\ select W64 pr (InSigned (-11)) = Ok OTHER.
Proof. eexists. split; [vm_compute; reflexivity|]. do 4 (split; [vm_compute; reflexivity|]). vm_compute. reflexivity. Qed.
(** floats below 2^53, by their shortest decimal *)
Theorem C79_wrong_exactly_f64 how id t pr w x :
  create how id t = Ok pr -> valid64 x -> is_finite_SF x = true -> below_2_53 (SFabs x) ->
  exists d E dd rules c, shortest_decimal d E (SFabs x) /\ (d = 0 \/ d mod 10 <> 0) /\ decimal_of d E dd /\
    In (id, rules) (cldr t) /\ select w pr (InF64 x) = Ok c /\ (cldr_select rules dd c <-> wrong_number t id dd = false).
Proof. exact (wrong_exact_f64 how id t pr w x). Qed.
Print Assumptions C79_wrong_exactly_f64.
Theorem C79_wrong_exactly_f32 how id t pr w x :
  create how id t = Ok pr -> valid32 x -> is_finite_SF x = true -> below_2_53 (SFabs x) ->
  exists d E dd rules c, shortest_decimal32 d E (SFabs x) /\ (d = 0 \/ d mod 10 <> 0) /\ decimal_of d E dd /\
    In (id, rules) (cldr t) /\ select w pr (InF32 x) = Ok c /\ (cldr_select rules dd c <-> wrong_number t id dd = false).
Proof. exact (wrong_exact_f32 how id t pr w x). Qed.
Print Assumptions C79_wrong_exactly_f32.
(** numerals of any length whose fraction is not rounded away *)
Theorem C79_wrong_exactly_long how id t pr w s d :
  create how id t = Ok pr -> numeral s d -> d_int d < 2 ^ 53 -> uts_f d < 2 ^ 64 -> fraction_survives d ->
  exists rules c, In (id, rules) (cldr t) /\ select w pr (InStr s) = Ok c /\ (cldr_select rules d c <-> wrong_number t id d = false).
Proof. exact (wrong_exact_long how id t pr w s d). Qed.
Print Assumptions C79_wrong_exactly_long.
Example C79_float_case : exists pr, create Halving (lang "ar") CARDINAL = Ok pr /\
  valid64 (S754_finite true 5629499534213120 (-49)) /\ below_2_53 (SFabs (S754_finite true 5629499534213120 (-49))) /\
  operands_from_f64 (S754_finite true 5629499534213120 (-49)) = operands_from_str (bs "10") /\
  wrong_number CARDINAL (lang "ar") (mkDecimal 10 []) = false /\ select W64 pr (InF64 (S754_finite true 5629499534213120 (-49))) = Ok FEW /\
  wrong_number CARDINAL (lang "ar") (mkDecimal 10 [5]) = true /\ select W64 pr (InStr (bs "10.5")) = Ok FEW.
Proof.
  eexists. split; [vm_compute; reflexivity|]. split; [reflexivity|]. split.
  - unfold below_2_53. cbn [SFabs SF2R cond_Zopp]. unfold F2R. cbn [Fnum Fexp]. change (bpow radix2 (-49)) with (/ IZR (2 ^ 49))%R.
    apply (Rmult_lt_reg_r (IZR (2 ^ 49))); [apply IZR_lt; reflexivity|].
    rewrite Rmult_assoc, Rinv_l by (apply not_0_IZR; discriminate). rewrite Rmult_1_r, <- mult_IZR. apply IZR_lt. reflexivity.
  - repeat (split; [vm_compute; reflexivity|]). vm_compute. reflexivity.
Qed.
(** Latvian: 111 and 0.30 are wrong, 0.11, 11 and 20.5 are told apart as well *)
Example C79_case :
  List.map (fun d => wrong_number CARDINAL (lang "lv") d)
    [mkDecimal 111 []; mkDecimal 0 [3; 0]; mkDecimal 0 [1; 1]; mkDecimal 11 []; mkDecimal 20 [5]; mkDecimal 24 [5]]
  = [true; true; false; false; true; false] /\
  numeral (bs "0.30") (mkDecimal 0 [3; 0]) /\ small (mkDecimal 0 [3; 0]) /\
  wrong_number ORDINAL (lang "en") (mkDecimal (2 ^ 64 - 13) []) = false /\
  wrong_number CARDINAL (lang "ar") (mkDecimal (2 ^ 64 - 1) []) = true /\
  exists pr, create Halving (lang "lv") CARDINAL = Ok pr /\
    select W64 pr (InStr (bs "0.30")) = Ok ZERO /\ select W64 pr (InStr (bs "0.11")) = Ok ZERO.
Proof.
  split; [vm_compute; reflexivity|]. split. { solve_numeral (bs "") (bs "0") (bs "30"). }
  split; [split; easy|]. split; [vm_compute; reflexivity|]. split; [vm_compute; reflexivity|].
  eexists. split; [vm_compute; reflexivity|]. split; vm_compute; reflexivity.
Qed.

(** C80: the full statement, that the parsers answer alike on 32-bit and 64-bit
    machines, is false: a 32-bit machine drops the second number *)
Theorem C80_same_answer_refuted :
  exists s c c', @parse_plural_condition W32 s = Ok c /\ @parse_plural_condition W64 s = Ok c' /\ c <> c' /\
    (forall r, @parse_plural_rule W32 s <> Ok r) /\ @parse_plural_rule W64 s = Ok (mkRule c' None).
Proof.
  exists (bs "n = 1,4294967296"), [[mkRel (mkExpr ON None) OpEQ [RValue 1]]],
    [[mkRel (mkExpr ON None) OpEQ [RValue 1; RValue 4294967296]]].
  split; [vm_compute; reflexivity|]. split; [vm_compute; reflexivity|]. split; [discriminate|].
  split; [|vm_compute; reflexivity]. intro r. vm_compute. discriminate.
Qed.
Print Assumptions C80_same_answer_refuted.
(** What holds: texts whose numbers are below 2^32 *)
Theorem C80_same_answer_partial s : @numbers_fit W32 s ->
  @parse_plural_rule W32 s = @parse_plural_rule W64 s /\ @parse_plural_condition W32 s = @parse_plural_condition W64 s.
Proof. exact (C80_same_lemma s). Qed.
Print Assumptions C80_same_answer_partial.
Theorem C80_rule_accepted s r : @parse_plural_rule W32 s = Ok r -> @parse_plural_rule W64 s = Ok r.
Proof. exact (C80_rule_lemma s r). Qed.
Print Assumptions C80_rule_accepted.
(** exactly which of the rules a 64-bit machine accepts are accepted by a 32-bit
    one: those without a number of 2^32 or more, samples alone aside *)
Theorem C80_rule_exactly s r : @parse_plural_rule W64 s = Ok r ->
  (@parse_plural_rule W32 s = Ok r <-> no_condition s \/ @numbers_fit W32 s) /\
  (@parse_plural_rule W32 s = Ok r \/ exists m, @parse_plural_rule W32 s = Err m).
Proof. exact (C80_exact_lemma s r). Qed.
Print Assumptions C80_rule_exactly.
Theorem C80_shipped_data t m key rs name text :
  rule_map_of t (cldr_json t) = Some m -> In (key, rs) m -> In (name, text) rs ->
  @parse_plural_rule W32 text = @parse_plural_rule W64 text /\
  @parse_plural_condition W32 text = @parse_plural_condition W64 text.
Proof. exact (C80_data_lemma t m key rs name text). Qed.
Print Assumptions C80_shipped_data.
Example C80_shipped_case : exists m rs rest, rule_map_of ORDINAL (cldr_json ORDINAL) = Some m /\ nth_error m 0 = Some (bs "af", rs) /\
  rs = (bs "pluralRule-count-other", bs " @integer 0~15, 100, 1000, 10000, 100000, 1000000, …") :: rest.
Proof. eexists. eexists. eexists. split; [vm_compute; reflexivity|]. split; vm_compute; reflexivity. Qed.
Example C80_case : let s := bs "n = 4294967295 and i % 10 = 2..4 @integer 4294967295" in
  @numbers_fit W32 s /\ (exists r, @parse_plural_rule W32 s = Ok r) /\
  @parse_plural_rule W32 (bs "n = 4294967296") = Err "Left string: 4294967296" /\
  exists r, @parse_plural_rule W64 (bs "n = 4294967296") = Ok r.
Proof.
  cbv zeta. set (s := bs "n = 4294967295 and i % 10 = 2..4 @integer 4294967295").
  split. { intros a ds b E D. exact (runs_below_any (2 ^ 32) s 0 eq_refl eq_refl a ds b E D). }
  split; [eexists; vm_compute; reflexivity|]. split; [vm_compute; reflexivity|]. eexists. vm_compute. reflexivity.
Qed.
