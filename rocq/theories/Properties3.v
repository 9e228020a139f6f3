(** * Properties C29-C31 and C45-C49: the rules against UTS #35 *)
From Coq Require Import Floats.SpecFloat.
From Verif Require Import Base F64 Operands Ast LangId GenRs GenPr RustExpr CldrParser PluralRules Tables Json Cldr Spec
  ApiProps GenMeaning Represents Conformance ConformanceProps WithinProps.
Open Scope N_scope.

Ltac solve_numeral sg i f :=
  exists sg, i, f; split; [first [now left|now right]|];
  split; [repeat constructor; unfold digit_char; easy|]; split; [easy|];
  split; [repeat constructor; unfold digit_char; easy|]; split; reflexivity.

(** C29: the full statement (every locale, every numeral) is false of the code:
    Arabic 103 is FEW in CLDR and [select] gives OTHER. *)
Theorem C29_select_follows_cldr_refuted :
  exists t id s d pr rules c, numeral s d /\ small d /\ create Halving id t = Ok pr /\
    In (id, rules) (cldr t) /\ select W64 pr (InStr s) = Ok c /\ ~ cldr_select rules d c.
Proof.
  destruct (integer_wrong_witness CARDINAL (lang "ar") (or_introl eq_refl)) as (s & d & A & B & _ & pr & rs & c & H).
  exists CARDINAL, (lang "ar"), s, d, pr, rs, c. tauto.
Qed.
Print Assumptions C29_select_follows_cldr_refuted.
(** What is true: all numerals for the locales outside the two lists, integers
    for those of [fraction_wrong]; the lists are exact by C30. *)
Theorem C29_select_follows_cldr_partial how id t pr w s d :
  create how id t = Ok pr -> numeral s d -> small d ->
  ~ In id (integer_wrong t) -> (In id (fraction_wrong t) -> integral d = true) ->
  exists rules c, In (id, rules) (cldr t) /\ select w pr (InStr s) = Ok c /\ cldr_select rules d c.
Proof. exact (follows_str how id t pr w s d). Qed.
Print Assumptions C29_select_follows_cldr_partial.
Example C29_case : exists pr rules, create Halving (lang "ru") CARDINAL = Ok pr /\
  find_rules CARDINAL (lang "ru") = Some rules /\
  numeral (bs "-122") (mkDecimal 122 []) /\ small (mkDecimal 122 []) /\
  ~ In (lang "ru") (integer_wrong CARDINAL) /\ ~ In (lang "ru") (fraction_wrong CARDINAL) /\
  select W64 pr (InStr (bs "-122")) = Ok FEW /\ cldr_selectb rules (mkDecimal 122 []) FEW = true.
Proof.
  eexists. eexists. split; [vm_compute; reflexivity|]. split; [vm_compute; reflexivity|].
  split. { solve_numeral (bs "-") (bs "122") (bs ""). }
  split; [split; easy|]. split; [now intro H; apply mem_in in H|]. split; [easy|].
  split; vm_compute; reflexivity.
Qed.

(** C30: the three lists are [get_locales t] without the other two,
    [fraction_wrong t] and [integer_wrong t] *)
Theorem C30_first_list how id t pr w s d :
  create how id t = Ok pr -> ~ In id (fraction_wrong t ++ integer_wrong t) ->
  numeral s d -> small d ->
  exists rules c, In (id, rules) (cldr t) /\ select w pr (InStr s) = Ok c /\ cldr_select rules d c.
Proof.
  exact (fun C N A B => follows_str how id t pr w s d C A B
    (fun H => N (in_or_app _ _ _ (or_intror H))) (fun H => False_ind _ (N (in_or_app _ _ _ (or_introl H))))).
Qed.
Print Assumptions C30_first_list.
Example C30_first_case : exists pr, create LeftRight (lang "is") CARDINAL = Ok pr /\
  ~ In (lang "is") (fraction_wrong CARDINAL ++ integer_wrong CARDINAL) /\
  numeral (bs "1.21") (mkDecimal 1 [2; 1]) /\ small (mkDecimal 1 [2; 1]) /\
  select W64 pr (InStr (bs "1.21")) = Ok ONE.
Proof.
  eexists. split; [vm_compute; reflexivity|]. split; [now intro H; apply mem_in in H|].
  split; [solve_numeral (bs "") (bs "1") (bs "21")|]. split; [split; easy|]. vm_compute. reflexivity.
Qed.
Theorem C30_second_list how id t pr w s d :
  create how id t = Ok pr -> In id (fraction_wrong t) ->
  numeral s d -> small d -> integral d = true ->
  exists rules c, In (id, rules) (cldr t) /\ select w pr (InStr s) = Ok c /\ cldr_select rules d c.
Proof.
  exact (fun C I A B D => follows_str how id t pr w s d C A B (proj2 (lists_lemma t) id I) (fun _ => D)).
Qed.
Print Assumptions C30_second_list.
Example C30_second_case : exists pr, create LeftRight (lang "en") ORDINAL = Ok pr /\
  In (lang "en") (fraction_wrong ORDINAL) /\
  numeral (bs "-103.0") (mkDecimal 103 [0]) /\ small (mkDecimal 103 [0]) /\ integral (mkDecimal 103 [0]) = true /\
  select W64 pr (InStr (bs "-103.0")) = Ok FEW.
Proof.
  eexists. split; [vm_compute; reflexivity|]. split; [now apply mem_in|].
  split; [solve_numeral (bs "-") (bs "103") (bs "0")|]. split; [split; easy|]. split; [reflexivity|]. vm_compute. reflexivity.
Qed.
Theorem C30_second_list_fails t id : In id (fraction_wrong t) ->
  exists s d pr rules c, numeral s d /\ small d /\ create Halving id t = Ok pr /\ In (id, rules) (cldr t) /\
    select W64 pr (InStr s) = Ok c /\ ~ cldr_select rules d c.
Proof.
  intro I. destruct (fraction_wrong_witness t id I) as (s & d & A & B & pr & rs & c & H).
  exists s, d, pr, rs, c. tauto.
Qed.
Print Assumptions C30_second_list_fails.
Theorem C30_third_list_fails t id : In id (integer_wrong t) ->
  exists s d pr rules c, numeral s d /\ small d /\ integral d = true /\ create Halving id t = Ok pr /\
    In (id, rules) (cldr t) /\ select W64 pr (InStr s) = Ok c /\ ~ cldr_select rules d c.
Proof.
  intro I. destruct (integer_wrong_witness t id I) as (s & d & A & B & D & pr & rs & c & H).
  exists s, d, pr, rs, c. tauto.
Qed.
Print Assumptions C30_third_list_fails.
Example C30_third_case : In (lang "ar") (integer_wrong CARDINAL) /\ exists pr rules,
  create Halving (lang "ar") CARDINAL = Ok pr /\ find_rules CARDINAL (lang "ar") = Some rules /\
  select W64 pr (InStr (bs "103")) = Ok OTHER /\ cldr_selectb rules (mkDecimal 103 []) FEW = true /\
  cldr_selectb rules (mkDecimal 103 []) OTHER = false.
Proof.
  split; [now apply mem_in|]. eexists. eexists. split; [vm_compute; reflexivity|]. split; [vm_compute; reflexivity|].
  split; [vm_compute; reflexivity|]. split; vm_compute; reflexivity.
Qed.
Theorem C30_lists_in_table t :
  (forall id, In id (fraction_wrong t ++ integer_wrong t) -> In id (get_locales t)) /\
  (forall id, In id (fraction_wrong t) -> ~ In id (integer_wrong t)).
Proof. exact (lists_lemma t). Qed.
Print Assumptions C30_lists_in_table.
Example C30_case : List.length (fraction_wrong ORDINAL) = 7%nat /\ List.length (integer_wrong CARDINAL) = 11%nat /\
  exists pr, create Halving (lang "en") ORDINAL = Ok pr /\
  select W64 pr (InStr (bs "122")) = Ok TWO /\ select W64 pr (InStr (bs "1.5")) = Ok ONE.
Proof.
  split; [reflexivity|]. split; [reflexivity|].
  eexists. split; [vm_compute; reflexivity|]. split; vm_compute; reflexivity.
Qed.

(** C31 *)
Theorem C31_u64_follows_cldr how id t pr w x :
  create how id t = Ok pr -> x < 2 ^ 64 -> ~ In id (integer_wrong t) ->
  exists rules c, In (id, rules) (cldr t) /\ select w pr (InUnsigned x) = Ok c /\
    cldr_select rules (mkDecimal x []) c.
Proof. exact (follows_unsigned how id t pr w x). Qed.
Print Assumptions C31_u64_follows_cldr.
Theorem C31_i64_follows_cldr how id t pr z :
  create how id t = Ok pr -> (Z.abs z < 2 ^ 63)%Z -> ~ In id (integer_wrong t) ->
  exists rules c, In (id, rules) (cldr t) /\ select W64 pr (InSigned z) = Ok c /\
    cldr_select rules (mkDecimal (Z.to_N (Z.abs z)) []) c.
Proof. exact (follows_signed how id t pr z). Qed.
Print Assumptions C31_i64_follows_cldr.
Example C31_i64_case : exists pr, create LeftRight (lang "ru") CARDINAL = Ok pr /\
  (Z.abs (-(2 ^ 63 - 5)) < 2 ^ 63)%Z /\ ~ In (lang "ru") (integer_wrong CARDINAL) /\
  select W64 pr (InSigned (-(2 ^ 63 - 5))) = Ok FEW /\
  exists rules, find_rules CARDINAL (lang "ru") = Some rules /\
    cldr_selectb rules (mkDecimal (2 ^ 63 - 5) []) FEW = true.
Proof.
  eexists. split; [vm_compute; reflexivity|]. split; [easy|]. split; [now intro H; apply mem_in in H|].
  split; [vm_compute; reflexivity|]. eexists. split; [vm_compute; reflexivity|vm_compute; reflexivity].
Qed.
Example C31_case : exists pr, create Halving (lang "pl") CARDINAL = Ok pr /\
  2 ^ 64 - 14 < 2 ^ 64 /\ ~ In (lang "pl") (integer_wrong CARDINAL) /\
  select W64 pr (InUnsigned (2 ^ 64 - 14)) = Ok FEW /\
  exists rules, find_rules CARDINAL (lang "pl") = Some rules /\
    cldr_selectb rules (mkDecimal (2 ^ 64 - 14) []) FEW = true.
Proof.
  eexists. split; [vm_compute; reflexivity|]. split; [easy|]. split; [now intro H; apply mem_in in H|].
  split; [vm_compute; reflexivity|]. eexists. split; [vm_compute; reflexivity|vm_compute; reflexivity].
Qed.

(** C45 *)
Theorem C45_generated_meaning ai c s d :
  supported ai c = true -> numeral s d -> small d -> (ai = true -> integral d = true) ->
  exists ts e po, gen_pr c = Ok ts /\ read_bexpr ts = Some e /\ operands_from_str s = Ok po /\
    eval e po = Ok (uts_condition c d).
Proof. exact (C45_lemma ai c s d). Qed.
Print Assumptions C45_generated_meaning.
Theorem C45_generated_meaning_u64 ai c x : supported ai c = true -> x < 2 ^ 64 ->
  exists ts e, gen_pr c = Ok ts /\ read_bexpr ts = Some e /\
    eval e (operands_from_unsigned x) = Ok (uts_condition c (mkDecimal x [])).
Proof. exact (C45_unsigned ai c x). Qed.
Print Assumptions C45_generated_meaning_u64.
Definition cond_of (s : string) : condition := match parse_plural_condition (bs s) with Ok c => c | _ => [] end.
Example C45_case :
  let c := cond_of "v = 0 and i % 10 = 2..4 and i % 100 != 12..14 or n = 0,5..7 or v = 0 and n % 7 != 3" in
  supported false c = true /\ numeral (bs "7.00") (mkDecimal 7 [0; 0]) /\ small (mkDecimal 7 [0; 0]) /\
  uts_condition c (mkDecimal 7 [0; 0]) = true /\ uts_condition c (mkDecimal 7 [0; 1]) = false.
Proof.
  split; [vm_compute; reflexivity|]. split.
  { solve_numeral (bs "") (bs "7") (bs "00"). }
  split; [split; easy|]. split; vm_compute; reflexivity.
Qed.
Example C45_u64_case : let c := cond_of "i % 1000000 = 0 and n != 0 or n % 10 = 1 and n % 100 != 11,71" in
  supported true c = true /\ 2 ^ 64 - 15 < 2 ^ 64 /\
  gen_value c (operands_from_unsigned (2 ^ 64 - 15)) = Ok (uts_condition c (mkDecimal (2 ^ 64 - 15) [])) /\
  uts_condition c (mkDecimal 21 []) = true /\ uts_condition c (mkDecimal 11 []) = false.
Proof. split; [vm_compute; reflexivity|]. split; [easy|]. split; [vm_compute; reflexivity|]. split; vm_compute; reflexivity. Qed.

(** C46: [rel_value] evaluates the tokens generated for one relation alone *)
Theorem C46_precedence c : cond_nonempty c ->
  exists ts e, gen_pr c = Ok ts /\ read_bexpr ts = Some e /\
  forall po, eval e po = res_or (List.map (fun a => res_and (List.map (fun r => rel_value r po) a)) c).
Proof. exact (C46_lemma c). Qed.
Print Assumptions C46_precedence.
Example C46_case : let c := cond_of "n = 1,2 and i != 3,5..6 or v within 2..3" in
  cond_nonempty c /\ gen_value c (operands_from_unsigned 2) = Ok true /\
  gen_value c (operands_from_unsigned 3) = Ok false.
Proof.
  split; [|split; vm_compute; reflexivity]. vm_compute. split; [easy|]. repeat constructor; easy.
Qed.

(** C47: the full statement fails: n % 100 = 3..10 on 103 *)
Theorem C47_n_mod_range_refuted :
  exists m a b s d po, numeral s d /\ small d /\ operands_from_str s = Ok po /\
    gen_value [[mkRel (mkExpr ON (Some m)) OpEQ [RRange (mkRange a b)]]] po = Ok false /\
    uts_condition [[mkRel (mkExpr ON (Some m)) OpEQ [RRange (mkRange a b)]]] d = true.
Proof.
  exists 100, 3, 10, (bs "103"), (mkDecimal 103 []). eexists.
  split. { solve_numeral (bs "") (bs "103") (bs ""). }
  split; [split; easy|]. split; [vm_compute; reflexivity|]. split; vm_compute; reflexivity.
Qed.
Print Assumptions C47_n_mod_range_refuted.
(** What is generated ignores the modulus; right for integers below it. *)
Theorem C47_n_mod_range_formula m a b po : a < 2 ^ 64 -> b < 2 ^ 64 ->
  gen_value [[mkRel (mkExpr ON (Some m)) OpEQ [RRange (mkRange a b)]]] po =
  Ok ((a <=? op_i po) && (op_i po <=? b)).
Proof. exact (n_mod_range_value m a b po). Qed.
Print Assumptions C47_n_mod_range_formula.
Example C47_formula_case :
  gen_value [[mkRel (mkExpr ON (Some 100)) OpEQ [RRange (mkRange 3 10)]]] (operands_from_unsigned 103) = Ok false /\
  gen_value [[mkRel (mkExpr ON (Some 2)) OpEQ [RRange (mkRange 3 10)]]] (operands_from_unsigned 5) = Ok true.
Proof. split; vm_compute; reflexivity. Qed.
Theorem C47_n_mod_range_partial m a b s po d :
  a < 2 ^ 64 -> b < 2 ^ 64 -> numeral s d -> small d -> operands_from_str s = Ok po ->
  integral d = true -> d_int d < m ->
  gen_value [[mkRel (mkExpr ON (Some m)) OpEQ [RRange (mkRange a b)]]] po =
  Ok (uts_relation (mkRel (mkExpr ON (Some m)) OpEQ [RRange (mkRange a b)]) d).
Proof.
  exact (fun A B Nm Sm E F I => C47_partial_lemma m a b po d A B (represents_str s d po Nm Sm E) (proj1 (N.eqb_eq _ _) F) I).
Qed.
Print Assumptions C47_n_mod_range_partial.
Example C47_case : exists po, operands_from_str (bs "7.0") = Ok po /\
  numeral (bs "7.0") (mkDecimal 7 [0]) /\ small (mkDecimal 7 [0]) /\ integral (mkDecimal 7 [0]) = true /\
  gen_value (cond_of "n % 100 = 3..10") po = Ok true.
Proof.
  eexists. split; [vm_compute; reflexivity|]. split; [solve_numeral (bs "") (bs "7") (bs "0")|].
  split; [split; easy|]. split; [reflexivity|vm_compute; reflexivity].
Qed.

(** C48: fails for a list without ranges (panic) and for more than one item *)
Theorem C48_within_refuted :
  (exists s c, parse_plural_condition s = Ok c /\ gen_pr c = Panic "index out of bounds") /\
  (exists s c s' d po, parse_plural_condition s = Ok c /\ numeral s' d /\ small d /\
     operands_from_str s' = Ok po /\ gen_value c po = Ok false /\ uts_condition c d = true).
Proof.
  split.
  - exists (bs "n within 1"). eexists. split; [vm_compute; reflexivity|vm_compute; reflexivity].
  - exists (bs "n within 1..2,4..5"). eexists. exists (bs "4"), (mkDecimal 4 []). eexists.
    split; [vm_compute; reflexivity|]. split; [solve_numeral (bs "") (bs "4") (bs "")|]. split; [split; easy|].
    split; [vm_compute; reflexivity|]. split; vm_compute; reflexivity.
Qed.
Print Assumptions C48_within_refuted.
(** true of one range, without modulus or with one on [i] (on [n] for integers) *)
Theorem C48_within_partial ai ex rg s po d :
  numeral s d -> small d -> operands_from_str s = Ok po -> (ai = true -> uts_f d = 0) -> within_supported ai ex rg = true ->
  gen_value [[mkRel ex OpWithin [RRange rg]]] po = Ok (uts_relation (mkRel ex OpWithin [RRange rg]) d).
Proof. exact (fun Nm Sm E => C48_partial_lemma ai ex rg po d (represents_str s d po Nm Sm E)). Qed.
Print Assumptions C48_within_partial.
Theorem C48_within_only_values ex op vs : op = OpWithin \/ op = OpNotWithin ->
  gen_pr [[mkRel ex op (List.map RValue vs)]] = Panic "index out of bounds".
Proof. exact (C48_panic_lemma ex op vs). Qed.
Print Assumptions C48_within_only_values.
Example C48_only_values_case : exists a b,
  parse_plural_condition (bs "i % 10 not within 2,4") = Ok [[mkRel (mkExpr OI (Some 10)) OpNotWithin (List.map RValue [a; b])]] /\
  gen_pr (cond_of "i % 10 not within 2,4") = Panic "index out of bounds".
Proof. eexists. eexists. split; vm_compute; reflexivity. Qed.
Theorem C48_within_first_range ex op l r0 po : op = OpWithin \/ op = OpNotWithin ->
  nth_error (GenFacts.ranges_of l) 0 = Some r0 ->
  gen_value [[mkRel ex op l]] po = gen_value [[mkRel ex op [RRange r0]]] po.
Proof. exact (C48_first_lemma ex op l r0 po). Qed.
Print Assumptions C48_within_first_range.
Example C48_first_range_case : let l := [RValue 7; RRange (mkRange 1 2); RRange (mkRange 4 5)] in
  nth_error (GenFacts.ranges_of l) 0 = Some (mkRange 1 2) /\
  cond_of "n within 7,1..2,4..5" = [[mkRel (mkExpr ON None) OpWithin l]] /\
  gen_value [[mkRel (mkExpr ON None) OpWithin l]] (operands_from_unsigned 2) = Ok true /\
  gen_value [[mkRel (mkExpr ON None) OpWithin l]] (operands_from_unsigned 7) = Ok false.
Proof. split; [reflexivity|]. split; [vm_compute; reflexivity|]. split; vm_compute; reflexivity. Qed.
Example C48_case : exists po, operands_from_str (bs "1.5") = Ok po /\
  numeral (bs "1.5") (mkDecimal 1 [5]) /\ small (mkDecimal 1 [5]) /\
  within_supported false (mkExpr ON None) (mkRange 1 2) = true /\
  gen_value (cond_of "n within 1..2") po = Ok true /\ gen_value (cond_of "n within 2..2") po = Ok false.
Proof.
  eexists. split; [vm_compute; reflexivity|]. split; [solve_numeral (bs "") (bs "1") (bs "5")|].
  split; [split; easy|]. split; [reflexivity|]. split; vm_compute; reflexivity.
Qed.

(** C49: fails: n not within 1..3 on 5 *)
Theorem C49_not_within_refuted :
  exists s c s' d po, parse_plural_condition s = Ok c /\ numeral s' d /\ small d /\
     operands_from_str s' = Ok po /\ gen_value c po = Ok false /\ uts_condition c d = true.
Proof.
  exists (bs "n not within 1..3"). eexists. exists (bs "5"), (mkDecimal 5 []). eexists.
  split; [vm_compute; reflexivity|]. split; [solve_numeral (bs "") (bs "5") (bs "")|]. split; [split; easy|].
  split; [vm_compute; reflexivity|]. split; vm_compute; reflexivity.
Qed.
Print Assumptions C49_not_within_refuted.
Theorem C49_not_within_partial ai ex rg s po d :
  numeral s d -> small d -> operands_from_str s = Ok po -> (ai = true -> uts_f d = 0) -> within_supported ai ex rg = true ->
  lower_val rg <= upper_val rg ->
  gen_value [[mkRel ex OpNotWithin [RRange rg]]] po = Ok false /\
  (gen_value [[mkRel ex OpNotWithin [RRange rg]]] po = Ok (uts_relation (mkRel ex OpNotWithin [RRange rg]) d) <->
   uts_relation (mkRel ex OpWithin [RRange rg]) d = true).
Proof. exact (fun Nm Sm E => C49_partial_lemma ai ex rg po d (represents_str s d po Nm Sm E)). Qed.
Print Assumptions C49_not_within_partial.
Theorem C49_not_within_formula ai ex rg s po d :
  numeral s d -> small d -> operands_from_str s = Ok po -> (ai = true -> uts_f d = 0) -> within_supported ai ex rg = true ->
  gen_value [[mkRel ex OpNotWithin [RRange rg]]] po =
  Ok (let '(a, b) := uts_expr ex d in (a <? lower_val rg * b) && (upper_val rg * b <? a)).
Proof. exact (fun Nm Sm E => C49_value ai ex rg po d (represents_str s d po Nm Sm E)). Qed.
Print Assumptions C49_not_within_formula.
Example C49_formula_case : exists po, operands_from_str (bs "2.5") = Ok po /\
  within_supported false (mkExpr ON None) (mkRange 4 1) = true /\
  cond_of "n not within 4..1" = [[mkRel (mkExpr ON None) OpNotWithin [RRange (mkRange 4 1)]]] /\
  gen_value (cond_of "n not within 4..1") po = Ok true.
Proof. eexists. split; [vm_compute; reflexivity|]. split; [reflexivity|]. split; vm_compute; reflexivity. Qed.
Example C49_case : exists po, operands_from_str (bs "2.5") = Ok po /\
  numeral (bs "2.5") (mkDecimal 2 [5]) /\ small (mkDecimal 2 [5]) /\
  within_supported false (mkExpr ON None) (mkRange 1 3) = true /\
  uts_relation (mkRel (mkExpr ON None) OpWithin [RRange (mkRange 1 3)]) (mkDecimal 2 [5]) = true /\
  gen_value (cond_of "n not within 1..3") po = Ok false.
Proof.
  eexists. split; [vm_compute; reflexivity|]. split; [solve_numeral (bs "") (bs "2") (bs "5")|].
  split; [split; easy|]. split; [reflexivity|]. split; vm_compute; reflexivity.
Qed.
