(** * Property C132: which categories are taken for which on fractions *)
From Coq Require Import Floats.SpecFloat.
From Flocq Require Import Core IEEE754.BinarySingleNaN.
From Verif Require Import Base F64 SpecR LangId GenRs Operands Ast Spec Cldr PluralRules Tables ApiProps Conformance FloatConf FracConf.
Open Scope N_scope.

(** when [select] gives a number with a fraction another category than CLDR, the pair is in the table *)
Theorem C132_fractions how id t pr w s d rules c c' : create how id t = Ok pr -> numeral s d -> small d ->
  In (id, rules) (cldr t) -> uts_f d <> 0 -> select w pr (InStr s) = Ok c -> cldr_select rules d c' -> c <> c' ->
  exists l, In (id, l) (frac_confusions t) /\ In (c', c) l.
Proof. exact (C132_lemma how id t pr w s d rules c c'). Qed.
Print Assumptions C132_fractions.
(** floats, by their shortest decimal *)
Theorem C132_fractions_f64 how id t pr w x rules c : create how id t = Ok pr -> In (id, rules) (cldr t) ->
  valid64 x -> is_finite_SF x = true -> below_2_53 (SFabs x) -> select w pr (InF64 x) = Ok c ->
  exists d E dd, shortest_decimal d E (SFabs x) /\ (d = 0 \/ d mod 10 <> 0) /\ decimal_of d E dd /\
    forall c', uts_f dd <> 0 -> cldr_select rules dd c' -> c <> c' -> exists l, In (id, l) (frac_confusions t) /\ In (c', c) l.
Proof. exact (C132_f64_lemma how id t pr w x rules c). Qed.
Print Assumptions C132_fractions_f64.
(** and every pair of the table occurs *)
Theorem C132_all_occur how id t pr w rules l c c' : create how id t = Ok pr -> In (id, rules) (cldr t) -> In (id, l) (frac_confusions t) -> In (c', c) l ->
  c <> c' /\ exists s d, numeral s d /\ small d /\ uts_f d <> 0 /\ select w pr (InStr s) = Ok c /\ cldr_select rules d c'.
Proof. exact (C132_seen_lemma how id t pr w rules l c c'). Qed.
Print Assumptions C132_all_occur.

(** Latvian: 1.12 is ZERO by CLDR and ONE for [select]; English ordinals: 1.5 is OTHER and ONE *)
Example C132_case : exists pr rules, create LeftRight (lang "lv") CARDINAL = Ok pr /\ In (lang "lv", rules) (cldr CARDINAL) /\
  select W32 pr (InStr (bs "1.12")) = Ok ONE /\ cldr_select rules (mkDecimal 1 [1; 2]) ZERO /\
  exists pr' rules', create Halving (lang "en") ORDINAL = Ok pr' /\ In (lang "en", rules') (cldr ORDINAL) /\
  select W64 pr' (InF64 (S754_finite false 6755399441055744 (-52))) = Ok ONE /\ cldr_select rules' (mkDecimal 1 [5]) OTHER.
Proof.
  destruct (create LeftRight (lang "lv") CARDINAL) as [pr| |] eqn:C; [|vm_compute in C; discriminate|vm_compute in C; discriminate].
  destruct (find_rules CARDINAL (lang "lv")) as [rules|] eqn:R; [|vm_compute in R; discriminate].
  exists pr, rules. split; [reflexivity|]. split; [exact (find_rules_in _ _ _ R)|].
  vm_compute in C. injection C as <-. vm_compute in R. injection R as <-.
  split; [vm_compute; reflexivity|]. split; [apply cldr_selectb_iff; vm_compute; reflexivity|].
  destruct (create Halving (lang "en") ORDINAL) as [pr| |] eqn:C; [|vm_compute in C; discriminate|vm_compute in C; discriminate].
  destruct (find_rules ORDINAL (lang "en")) as [rules|] eqn:R; [|vm_compute in R; discriminate].
  exists pr, rules. split; [reflexivity|]. split; [exact (find_rules_in _ _ _ R)|].
  vm_compute in C. injection C as <-. vm_compute in R. injection R as <-.
  split; [vm_compute; reflexivity|]. apply cldr_selectb_iff; vm_compute; reflexivity.
Qed.
