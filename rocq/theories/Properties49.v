(** * Property C134: the first wrong integer and the longest run of wrong ones *)
From Verif Require Import Base LangId GenRs Operands Spec Cldr PluralRules Tables ApiProps Conformance WrongCount WrongRuns.
Open Scope N_scope.

(** [m] is the smallest wrong integer, [n] consecutive ones from [s] on are wrong, [n + 1] never *)
Theorem C134_runs how id t pr w m n s : create how id t = Ok pr -> In (id, (m, n, s)) (runs t) ->
  (m < 2 ^ 64 /\ wrong_at t id pr w m /\ forall x, x < m -> ~ wrong_at t id pr w x) /\
  (s + n < 2 ^ 64 /\ forall x, s <= x -> x < s + n -> wrong_at t id pr w x) /\
  forall a, a + n < 2 ^ 64 -> exists x, a <= x /\ x <= a + n /\ ~ wrong_at t id pr w x.
Proof. exact (C134_lemma how id t pr w m n s). Qed.
Print Assumptions C134_runs.
(** all locales with wrong integers are listed *)
Theorem C134_listed how id t pr w x : create how id t = Ok pr -> x < 2 ^ 64 -> wrong_at t id pr w x -> In id (map fst (runs t)).
Proof. exact (C134_listed_lemma how id t pr w x). Qed.
Print Assumptions C134_listed.

(** Arabic: 102 is right, 103 to 199 are wrong, 200 is right *)
Example C134_case : exists pr rules, create Halving (lang "ar") CARDINAL = Ok pr /\ In (lang "ar", (103, 97, 103)) (runs CARDINAL) /\
  In (lang "ar", rules) (cldr CARDINAL) /\
  select W64 pr (InUnsigned 102) = Ok OTHER /\ cldr_select rules (mkDecimal 102 []) OTHER /\
  select W64 pr (InUnsigned 199) = Ok OTHER /\ cldr_select rules (mkDecimal 199 []) MANY /\
  select W64 pr (InUnsigned 200) = Ok OTHER /\ cldr_select rules (mkDecimal 200 []) OTHER.
Proof.
  destruct (create Halving (lang "ar") CARDINAL) as [pr| |] eqn:C; [|vm_compute in C; discriminate|vm_compute in C; discriminate].
  destruct (find_rules CARDINAL (lang "ar")) as [rules|] eqn:R; [|vm_compute in R; discriminate].
  exists pr, rules. split; [reflexivity|]. split; [cbn [runs In]; tauto|]. split; [exact (find_rules_in _ _ _ R)|].
  vm_compute in C. injection C as <-. vm_compute in R. injection R as <-.
  do 2 (split; [vm_compute; reflexivity|]; split; [apply cldr_selectb_iff; vm_compute; reflexivity|]).
  split; [vm_compute; reflexivity|]. apply cldr_selectb_iff; vm_compute; reflexivity.
Qed.
