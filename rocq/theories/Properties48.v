(** * Property C133: categories that stop although CLDR's go on *)
From Verif Require Import Base LangId GenRs Operands Ast Spec Cldr PluralRules Tables ApiProps Conformance LastSeen CutShort.
Open Scope N_scope.

(** [select] gives the category to no integer above [m], CLDR to one in every 100 *)
Theorem C133_cut_short how id t pr w rules c m : create how id t = Ok pr -> In (id, rules) (cldr t) -> In (id, c, m) (cut_short t) ->
  (select w pr (InUnsigned m) = Ok c /\ forall x, x < 2 ^ 64 -> select w pr (InUnsigned x) = Ok c -> x <= m) /\
  forall a, 101 <= a -> exists x, a <= x /\ x < a + 100 /\ cldr_select rules (mkDecimal x []) c.
Proof. exact (C133_lemma how id t pr w rules c m). Qed.
Print Assumptions C133_cut_short.
(** every other category that stops (C131) stops at the same integer by CLDR *)
Theorem C133_rightly how id t pr rules c m ids : create how id t = Ok pr -> In (id, rules) (cldr t) ->
  In (c, m, ids) (last_seen t) -> In id ids -> (forall k, ~ In (id, c, k) (cut_short t)) ->
  cldr_select rules (mkDecimal m []) c /\ forall x, x < 2 ^ 64 -> cldr_select rules (mkDecimal x []) c -> x <= m.
Proof. exact (C133_other_lemma how id t pr rules c m ids). Qed.
Print Assumptions C133_rightly.

(** Maltese: 19 is the last MANY for [select], CLDR has 111; Italian ordinals: 800 is the last MANY of both *)
Example C133_case : exists pr rules, create LeftRight (lang "mt") CARDINAL = Ok pr /\ In (lang "mt", rules) (cldr CARDINAL) /\
  In (lang "mt", MANY, 19) (cut_short CARDINAL) /\ select W32 pr (InUnsigned 111) = Ok OTHER /\ cldr_select rules (mkDecimal 111 []) MANY /\
  In (MANY, 800, map lang ["it"; "sc"; "scn"]%string) (last_seen ORDINAL) /\ (forall k, ~ In (lang "it", MANY, k) (cut_short ORDINAL)).
Proof.
  destruct (create LeftRight (lang "mt") CARDINAL) as [pr| |] eqn:C; [|vm_compute in C; discriminate|vm_compute in C; discriminate].
  destruct (find_rules CARDINAL (lang "mt")) as [rules|] eqn:R; [|vm_compute in R; discriminate].
  exists pr, rules. split; [reflexivity|]. split; [exact (find_rules_in _ _ _ R)|].
  vm_compute in C. injection C as <-. vm_compute in R. injection R as <-.
  split; [cbn [cut_short In]; tauto|]. split; [vm_compute; reflexivity|]. split; [apply cldr_selectb_iff; vm_compute; reflexivity|].
  split; [cbn [last_seen In]; tauto|]. intros k [H|[]]. discriminate H.
Qed.
