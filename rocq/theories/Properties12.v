(** * Properties C81-C86: errors of the conversion, names of locales, and how the
    shipped rules behave

    The statements use TextSpec.v and BehaviourSpec.v. *)
From Coq Require Import Lia.
From Verif Require Import Base Utf8 F64 Operands Ast LangId GenRs PluralRules Tables Json Cldr Spec ApiProps Conformance BehaviourSpec
  TextSpec TextProps CycleProps SpellingProps ClassProps.
Open Scope N_scope.

(** C81 *)
Theorem C81_conversion_errors s t : utf8_text s -> without_minus s t ->
  (operands_from_str s = Err "Incorrect number passed!" <-> ~ float_text t) /\
  (operands_from_str s = Err "Could not convert string to integer!" <-> bad_parts t) /\
  (forall e, operands_from_str s = Err e -> e = "Incorrect number passed!"%string \/ e = "Could not convert string to integer!"%string).
Proof. rewrite <- utf8_iff. exact (C81_lemma s t). Qed.
Print Assumptions C81_conversion_errors.
Example C81_case : ~ float_text (bs "1,5") /\ ~ float_text (bs "--1") /\ bad_parts (bs "1.5e3") /\ bad_parts (bs ".5") /\
  bad_parts (bs "-1.5").
Proof.
  split; [apply (C81_conversion_errors (bs "1,5")); [now apply utf8_iff|now right|vm_compute; reflexivity]|].
  split; [apply (C81_conversion_errors (bs "---1")); [now apply utf8_iff|now left|vm_compute; reflexivity]|].
  split; [apply (C81_conversion_errors (bs "1.5e3")); [now apply utf8_iff|now right|vm_compute; reflexivity]|].
  split; [apply (C81_conversion_errors (bs ".5")); [now apply utf8_iff|now right|vm_compute; reflexivity]|].
  apply (C81_conversion_errors (bs "--1.5")); [now apply utf8_iff|now left|vm_compute; reflexivity].
Qed.

(** C82 *)
Theorem C82_locale_names how t m : rule_map_of t (cldr_json t) = Some m -> forall s id,
  (langid_from_str s = Some id /\ (exists pr, create how id t = Ok pr)) <->
  (exists key rules, In (key, rules) m /\ key <> bs "root" /\ langid_from_str key = Some id /\ same_spelling key s).
Proof. exact (C82_lemma how t m). Qed.
Print Assumptions C82_locale_names.
Example C82_case : exists m id, rule_map_of CARDINAL (cldr_json CARDINAL) = Some m /\
  langid_from_str (bs "PT_pt") = Some id /\ (exists pr, create Halving id CARDINAL = Ok pr) /\
  same_spelling (bs "pt-PT") (bs "PT_pt") /\ ~ same_spelling (bs "pt") (bs "pt-BR").
Proof.
  eexists. eexists. split; [vm_compute; reflexivity|]. split; [vm_compute; reflexivity|].
  split; [eexists; vm_compute; reflexivity|]. split.
  - change (Forall2 same_sign [112; 116; 45; 80; 84] [80; 84; 95; 112; 116]).
    repeat (constructor; [unfold same_sign; lia|]). constructor.
  - intro H. inversion H as [|? ? ? ? _ H1]; subst. inversion H1 as [|? ? ? ? _ H2]; subst. inversion H2.
Qed.

(** C83.  The bounds on [B'] and [P'] keep the comparison inside [u64]. *)
Theorem C83_cycles how id t pr w : create how id t = Ok pr ->
  exists B P, cycle t id = Some (B, P) /\
  (forall x y, x < 2 ^ 64 -> y < 2 ^ 64 -> B <= x -> B <= y -> x mod P = y mod P ->
     select w pr (InUnsigned x) = select w pr (InUnsigned y)) /\
  (forall B' P', 0 < P' -> B' < 2 ^ 40 -> P' < 2 ^ 40 ->
     (forall x y, x < 2 ^ 64 -> y < 2 ^ 64 -> B' <= x -> B' <= y -> x mod P' = y mod P' ->
        select w pr (InUnsigned x) = select w pr (InUnsigned y)) ->
     B <= B' /\ (P | P')).
Proof. exact (C83_lemma how id t pr w). Qed.
Print Assumptions C83_cycles.
Example C83_case : exists pr, create Halving (lang "ru") CARDINAL = Ok pr /\ cycle CARDINAL (lang "ru") = Some (0, 100) /\
  select W64 pr (InUnsigned 18446744073709551422) = select W64 pr (InUnsigned 22) /\
  select W64 pr (InUnsigned 11) <> select W64 pr (InUnsigned 61).
Proof.
  eexists. split; [vm_compute; reflexivity|]. split; [vm_compute; reflexivity|]. split; [vm_compute; reflexivity|].
  vm_compute. discriminate.
Qed.

(** C84 *)
Theorem C84_spelling_irrelevant how id t pr w s d s' d' : create how id t = Ok pr -> listed id (spelling_matters t) = false ->
  numeral s d -> numeral s' d' -> accepted s -> accepted s' -> keeps_integer d -> keeps_integer d' -> same_value d d' ->
  select w pr (InStr s) = select w pr (InStr s').
Proof. exact (C84_same_lemma how id t pr w s d s' d'). Qed.
Print Assumptions C84_spelling_irrelevant.
Theorem C84_spelling_matters how id t pr w : create how id t = Ok pr -> listed id (spelling_matters t) = true ->
  exists s d s' d', numeral s d /\ numeral s' d' /\ small d /\ small d' /\ same_value d d' /\
    select w pr (InStr s) <> select w pr (InStr s').
Proof. exact (C84_differ_lemma how id t pr w). Qed.
Print Assumptions C84_spelling_matters.
(** one zero more, for numbers of any size *)
Theorem C84_trailing_zero how id t pr w s po : create how id t = Ok pr -> listed id (spelling_matters t) = false ->
  operands_from_str s = Ok po -> In 46 s -> op_f po * 10 < 2 ^ 64 ->
  select w pr (InStr (s ++ [48])%list) = select w pr (InStr s).
Proof. exact (C84_append_lemma how id t pr w s po). Qed.
Print Assumptions C84_trailing_zero.
Example C84_case : exists pr pr' po, create Halving (lang "fr") CARDINAL = Ok pr /\ create Halving (lang "en") CARDINAL = Ok pr' /\
  listed (lang "fr") (spelling_matters CARDINAL) = false /\ listed (lang "en") (spelling_matters CARDINAL) = true /\
  same_value (mkDecimal 1 [5]) (mkDecimal 1 [5; 0]) /\ ~ same_value (mkDecimal 1 [5]) (mkDecimal 1 [0; 5]) /\
  operands_from_str (bs "98765432109876543210.50"%string) = Err "Could not convert string to integer!" /\
  operands_from_str (bs "8765432109876543210.50"%string) = Ok po /\ In 46 (bs "8765432109876543210.50"%string) /\ op_f po * 10 < 2 ^ 64.
Proof.
  eexists. eexists. eexists. split; [vm_compute; reflexivity|]. split; [vm_compute; reflexivity|].
  split; [vm_compute; reflexivity|]. split; [vm_compute; reflexivity|]. split; [reflexivity|]. split; [discriminate|].
  split; [vm_compute; reflexivity|]. split; [vm_compute; reflexivity|]. split; [vm_compute; tauto|reflexivity].
Qed.

(** the bound on integers is needed *)
Example C84_bound : exists pr, create Halving (lang "is") CARDINAL = Ok pr /\
  listed (lang "is") (spelling_matters CARDINAL) = false /\
  ~ keeps_integer (mkDecimal 9007199254741001 []) /\ keeps_integer (mkDecimal 9007199254741001 [0]) /\
  select W64 pr (InStr (bs "9007199254741001"%string)) <> select W64 pr (InStr (bs "9007199254741001.0"%string)).
Proof.
  eexists. split; [vm_compute; reflexivity|]. split; [vm_compute; reflexivity|].
  split; [intros [K|K]; vm_compute in K; congruence|].
  split; [left; vm_compute; congruence|]. vm_compute. congruence.
Qed.

(** C85 *)
Theorem C85_same_rule how how' id id' t pr pr' : create how id t = Ok pr -> create how' id' t = Ok pr' ->
  ((forall w x, select w pr x = select w pr' x) <-> same_class t id id' = true).
Proof. exact (C85_lemma how how' id id' t pr pr'). Qed.
Print Assumptions C85_same_rule.
Example C85_case : exists fr pt en, create Halving (lang "fr") CARDINAL = Ok fr /\ create Halving (lang "pt") CARDINAL = Ok pt /\
  create Halving (lang "en") CARDINAL = Ok en /\ pr_function fr <> pr_function pt /\
  same_class CARDINAL (lang "fr") (lang "pt") = true /\ same_class CARDINAL (lang "fr") (lang "en") = false.
Proof.
  eexists. eexists. eexists. split; [vm_compute; reflexivity|]. split; [vm_compute; reflexivity|].
  split; [vm_compute; reflexivity|]. split; [discriminate|]. split; vm_compute; reflexivity.
Qed.

(** C86 *)
Theorem C86_categories_reached how id t pr w rules c : create how id t = Ok pr -> In (id, rules) (cldr t) ->
  (exists cond, In (c, cond) rules) \/ c = OTHER ->
  (exists s, select w pr (InStr s) = Ok c) /\
  ((exists x, x < 2 ^ 64 /\ select w pr (InUnsigned x) = Ok c) <-> never_for_integers t id c = false).
Proof. exact (C86_lemma how id t pr w rules c). Qed.
Print Assumptions C86_categories_reached.
Example C86_case : exists pr rules, create Halving (lang "cs") CARDINAL = Ok pr /\ find_rules CARDINAL (lang "cs") = Some rules /\
  List.map fst rules = [FEW; MANY; ONE; OTHER] /\ never_for_integers CARDINAL (lang "cs") MANY = true /\
  never_for_integers CARDINAL (lang "cs") FEW = false /\ select W64 pr (InStr (bs "1.5"%string)) = Ok MANY.
Proof.
  eexists. eexists. split; [vm_compute; reflexivity|]. split; [vm_compute; reflexivity|]. split; [reflexivity|].
  split; [vm_compute; reflexivity|]. split; vm_compute; reflexivity.
Qed.
