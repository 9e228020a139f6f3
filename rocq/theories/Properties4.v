(** * Properties C32, C33, C61 and C62: floats, long numerals, exclusive conditions *)
From Coq Require Import Reals Lra Floats.SpecFloat.
From Flocq Require Import IEEE754.BinarySingleNaN.
From Verif Require Import Base F64 SpecR Operands Ast LangId GenRs GenPr PluralRules Tables Cldr Spec
  GenMeaning Conformance ConformanceProps FloatConf Exclusive.
Open Scope N_scope.

(** C32 *)
Theorem C32_f64_follows_cldr how id t pr w x :
  create how id t = Ok pr -> valid64 x -> is_finite_SF x = true -> below_2_53 (SFabs x) ->
  ~ In id (integer_wrong t) ->
  exists d E dd, shortest_decimal d E (SFabs x) /\ (d = 0 \/ d mod 10 <> 0) /\ decimal_of d E dd /\
    ((In id (fraction_wrong t) -> integral dd = true) ->
     exists rules c, In (id, rules) (cldr t) /\ select w pr (InF64 x) = Ok c /\ cldr_select rules dd c).
Proof. exact (follows_f64 how id t pr w x). Qed.
Print Assumptions C32_f64_follows_cldr.
(** -1.5 in Danish: 1.5 is ONE because i = 1 and t <> 0 *)
Example C32_case : exists pr rules, create Halving (lang "da") CARDINAL = Ok pr /\
  valid64 (S754_finite true 6755399441055744 (-52)) /\ below_2_53 (SFabs (S754_finite true 6755399441055744 (-52))) /\
  ~ In (lang "da") (integer_wrong CARDINAL) /\ ~ In (lang "da") (fraction_wrong CARDINAL) /\
  find_rules CARDINAL (lang "da") = Some rules /\ decimal_of 15 (-1) (mkDecimal 1 [5]) /\
  select W64 pr (InF64 (S754_finite true 6755399441055744 (-52))) = Ok ONE /\
  cldr_selectb rules (mkDecimal 1 [5]) ONE = true.
Proof.
  eexists. eexists. split; [vm_compute; reflexivity|]. split; [reflexivity|].
  split. { unfold below_2_53. cbn. unfold Defs.F2R. cbn. lra. }
  split; [now intro H; apply mem_in in H|]. split; [easy|]. split; [vm_compute; reflexivity|].
  split; [split; [reflexivity|split; [reflexivity|now repeat constructor]]|].
  split; vm_compute; reflexivity.
Qed.

(** C61 *)
Theorem C61_f32_follows_cldr how id t pr w x :
  create how id t = Ok pr -> valid32 x -> is_finite_SF x = true -> below_2_53 (SFabs x) ->
  ~ In id (integer_wrong t) ->
  exists d E dd, shortest_decimal32 d E (SFabs x) /\ (d = 0 \/ d mod 10 <> 0) /\ decimal_of d E dd /\
    ((In id (fraction_wrong t) -> integral dd = true) ->
     exists rules c, In (id, rules) (cldr t) /\ select w pr (InF32 x) = Ok c /\ cldr_select rules dd c).
Proof. exact (follows_f32 how id t pr w x). Qed.
Print Assumptions C61_f32_follows_cldr.
(** the f32 nearest to 0.1 is not 0.1, but its category is that of 0.1 *)
Example C61_case : exists pr rules, create Halving (lang "is") CARDINAL = Ok pr /\
  valid32 (S754_finite false 13421773 (-27)) /\ below_2_53 (SFabs (S754_finite false 13421773 (-27))) /\
  ~ In (lang "is") (integer_wrong CARDINAL) /\ ~ In (lang "is") (fraction_wrong CARDINAL) /\
  find_rules CARDINAL (lang "is") = Some rules /\ decimal_of 1 (-1) (mkDecimal 0 [1]) /\
  select W64 pr (InF32 (S754_finite false 13421773 (-27))) = Ok ONE /\
  cldr_selectb rules (mkDecimal 0 [1]) ONE = true.
Proof.
  eexists. eexists. split; [vm_compute; reflexivity|]. split; [reflexivity|].
  split. { unfold below_2_53. cbn. unfold Defs.F2R. cbn. lra. }
  split; [now intro H; apply mem_in in H|]. split; [easy|]. split; [vm_compute; reflexivity|].
  split; [split; [reflexivity|split; [reflexivity|now repeat constructor]]|].
  split; vm_compute; reflexivity.
Qed.

(** C62: the full statement, without [fraction_survives], is false: 1.0000000000000001 rounds to 1.0 and becomes ONE *)
Theorem C62_long_numerals_refuted :
  exists t id s d pr rules c, ~ In id (fraction_wrong t ++ integer_wrong t) /\
    numeral s d /\ d_int d < 2 ^ 53 /\ uts_f d < 2 ^ 64 /\
    create Halving id t = Ok pr /\ In (id, rules) (cldr t) /\ select W64 pr (InStr s) = Ok c /\ ~ cldr_select rules d c.
Proof.
  destruct (find_rules CARDINAL (lang "af")) as [rules|] eqn:R; [|vm_compute in R; discriminate R].
  exists CARDINAL, (lang "af"), (bs "1.0000000000000001"), (mkDecimal 1 [0;0;0;0;0;0;0;0;0;0;0;0;0;0;0;1]).
  eexists. exists rules, ONE.
  split. { intro H. apply mem_in in H. vm_compute in H. discriminate H. }
  split.
  { exists (bs ""), (bs "1"), (bs "0000000000000001"); split; [now left|];
    split; [repeat constructor; unfold digit_char; easy|]; split; [easy|];
    split; [repeat constructor; unfold digit_char; easy|]; split; reflexivity. }
  split; [reflexivity|]. split; [reflexivity|]. split; [vm_compute; reflexivity|].
  split; [now apply find_rules_in|]. split; [vm_compute; reflexivity|].
  rewrite <- cldr_selectb_iff. vm_compute in R. injection R as <-. vm_compute. discriminate.
Qed.
Print Assumptions C62_long_numerals_refuted.
Theorem C62_long_numerals_partial how id t pr w s d :
  create how id t = Ok pr -> numeral s d -> d_int d < 2 ^ 53 -> uts_f d < 2 ^ 64 -> fraction_survives d ->
  ~ In id (integer_wrong t) -> (In id (fraction_wrong t) -> integral d = true) ->
  exists rules c, In (id, rules) (cldr t) /\ select w pr (InStr s) = Ok c /\ cldr_select rules d c.
Proof. exact (follows_long how id t pr w s d). Qed.
Print Assumptions C62_long_numerals_partial.
(** beyond [small]: 12345678.123456789012 has 20 digits *)
Example C62_case : exists pr rules, create Halving (lang "fil") CARDINAL = Ok pr /\
  find_rules CARDINAL (lang "fil") = Some rules /\
  numeral (bs "12345678.123456789012") (mkDecimal 12345678 [1;2;3;4;5;6;7;8;9;0;1;2]) /\
  2 ^ 53 < uts_num (mkDecimal 12345678 [1;2;3;4;5;6;7;8;9;0;1;2]) /\
  fraction_survives (mkDecimal 12345678 [1;2;3;4;5;6;7;8;9;0;1;2]) /\
  select W64 pr (InStr (bs "12345678.123456789012")) = Ok ONE /\
  cldr_selectb rules (mkDecimal 12345678 [1;2;3;4;5;6;7;8;9;0;1;2]) ONE = true.
Proof.
  eexists. eexists. split; [vm_compute; reflexivity|]. split; [vm_compute; reflexivity|].
  split.
  { exists (bs ""), (bs "12345678"), (bs "123456789012"); split; [now left|];
    split; [repeat constructor; unfold digit_char; easy|]; split; [easy|];
    split; [repeat constructor; unfold digit_char; easy|]; split; reflexivity. }
  split; [reflexivity|]. split; [eapply survives; [vm_compute; reflexivity|vm_compute; discriminate]|].
  split; vm_compute; reflexivity.
Qed.

(** C33 *)
Theorem C33_mutually_exclusive t id rules c1 c2 cond1 cond2 d :
  In (id, rules) (cldr t) -> Forall (fun x => x < 10) (d_frac d) ->
  In (c1, cond1) rules -> In (c2, cond2) rules ->
  uts_condition cond1 d = true -> uts_condition cond2 d = true -> c1 = c2.
Proof. exact (C33_lemma t id rules c1 c2 cond1 cond2 d). Qed.
Print Assumptions C33_mutually_exclusive.
(** so the CLDR category of a number is unique *)
Theorem C33_unique_category t id rules d c1 c2 :
  In (id, rules) (cldr t) -> Forall (fun x => x < 10) (d_frac d) ->
  cldr_select rules d c1 -> cldr_select rules d c2 -> c1 = c2.
Proof. exact (C33_unique t id rules d c1 c2). Qed.
Print Assumptions C33_unique_category.
Example C33_case : exists rules, In (lang "lt", rules) (cldr CARDINAL) /\
  (exists c, In (FEW, c) rules /\ uts_condition c (mkDecimal 22 [0]) = true) /\
  (exists c, In (MANY, c) rules /\ uts_condition c (mkDecimal 22 [5]) = true) /\
  (exists c, In (ONE, c) rules /\ uts_condition c (mkDecimal 21 [0; 0]) = true).
Proof.
  destruct (find_rules CARDINAL (lang "lt")) as [rules|] eqn:R; [|vm_compute in R; discriminate R].
  exists rules. split; [now apply find_rules_in|]. vm_compute in R. injection R as <-.
  split; [|split]; (eexists; split; [cbn; tauto|vm_compute; reflexivity]).
Qed.
