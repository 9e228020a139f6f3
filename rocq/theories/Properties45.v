(** * Property C130: which categories are taken for which *)
From Verif Require Import Base LangId GenRs Operands Ast Spec Cldr PluralRules Tables ApiProps Conformance WrongCount Confused.
Open Scope N_scope.

(** when [select] gives an integer another category than CLDR, the pair is in the table *)
Theorem C130_confusions how id t pr w rules x c c' : create how id t = Ok pr -> In (id, rules) (cldr t) -> x < 2 ^ 64 ->
  select w pr (InUnsigned x) = Ok c -> cldr_select rules (mkDecimal x []) c' -> c <> c' ->
  exists l, In (id, l) (confusions t) /\ In (c', c) l.
Proof. exact (C130_lemma how id t pr w rules x c c'). Qed.
Print Assumptions C130_confusions.
(** and every pair of the table occurs *)
Theorem C130_all_occur how id t pr w rules l c c' : create how id t = Ok pr -> In (id, rules) (cldr t) -> In (id, l) (confusions t) -> In (c', c) l ->
  c <> c' /\ exists x, x < 2 ^ 17 /\ select w pr (InUnsigned x) = Ok c /\ cldr_select rules (mkDecimal x []) c'.
Proof. exact (C130_seen_lemma how id t pr w rules l c c'). Qed.
Print Assumptions C130_all_occur.

(** Lithuanian: 111 and 22 *)
Example C130_case : exists pr rules, create Halving (lang "lt") CARDINAL = Ok pr /\ In (lang "lt", rules) (cldr CARDINAL) /\
  select W32 pr (InUnsigned 111) = Ok ONE /\ cldr_select rules (mkDecimal 111 []) OTHER /\
  select W32 pr (InUnsigned 22) = Ok OTHER /\ cldr_select rules (mkDecimal 22 []) FEW /\
  In (lang "lt", [(FEW, OTHER); (OTHER, ONE)]) (confusions CARDINAL).
Proof.
  destruct (create Halving (lang "lt") CARDINAL) as [pr| |] eqn:C; [|vm_compute in C; discriminate|vm_compute in C; discriminate].
  destruct (find_rules CARDINAL (lang "lt")) as [rules|] eqn:R; [|vm_compute in R; discriminate].
  exists pr, rules. split; [reflexivity|]. split; [exact (find_rules_in _ _ _ R)|].
  vm_compute in C. injection C as <-. vm_compute in R. injection R as <-.
  split; [vm_compute; reflexivity|]. split; [apply cldr_selectb_iff; vm_compute; reflexivity|].
  split; [vm_compute; reflexivity|]. split; [apply cldr_selectb_iff; vm_compute; reflexivity|].
  cbn [confusions In]. tauto.
Qed.
