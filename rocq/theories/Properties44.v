(** * Property C129: how often integers get a wrong category *)
From Verif Require Import Base LangId GenRs Operands Spec Cldr PluralRules Tables ApiProps Conformance WrongSpec WrongCount.
Open Scope N_scope.

(** [rates] is in WrongCount.v: eleven locales for cardinals and one for ordinals *)
Theorem C129_rates how id t pr w r : create how id t = Ok pr -> In (id, r) (rates t) ->
  (forall a, from r <= a -> a + of r <= 2 ^ 64 -> counted (wrong_at t id pr w) a (a + of r) (many r)) /\
  (forall k, from r + k * of r <= 2 ^ 64 -> counted (wrong_at t id pr w) 0 (from r + k * of r) (before r + k * many r)).
Proof. exact (C129_lemma how id t pr w r). Qed.
Print Assumptions C129_rates.
Theorem C129_no_others how id t pr w x : create how id t = Ok pr -> ~ In id (List.map fst (rates t)) -> x < 2 ^ 64 ->
  ~ wrong_at t id pr w x.
Proof. exact (C129_none_lemma how id t pr w x). Qed.
Print Assumptions C129_no_others.
(** a number of things is one number *)
Theorem C129_counted P a b k k' : counted P a b k -> counted P a b k' -> k = k'.
Proof. exact (counted_unique P a b k k'). Qed.
Print Assumptions C129_counted.

(** of the numbers below 10^18, Arabic gets 97 in 100 from 100 on wrong *)
Example C129_case : exists pr, create LeftRight (lang "ar") CARDINAL = Ok pr /\ In (lang "ar", mkRate 100 0 97 100) (rates CARDINAL) /\
  counted (wrong_at CARDINAL (lang "ar") pr W64) 12345 12445 97 /\
  counted (wrong_at CARDINAL (lang "ar") pr W64) 0 (10 ^ 18) (97 * (10 ^ 16 - 1)) /\
  wrong_at CARDINAL (lang "ar") pr W64 103 /\ ~ wrong_at CARDINAL (lang "ar") pr W64 102 /\
  ~ In (lang "pl") (List.map fst (rates CARDINAL)).
Proof.
  destruct (create LeftRight (lang "ar") CARDINAL) as [pr| |] eqn:C; [|vm_compute in C; discriminate|vm_compute in C; discriminate].
  assert (R : In (lang "ar", mkRate 100 0 97 100) (rates CARDINAL)) by (now left).
  exists pr. split; [reflexivity|]. split; [exact R|]. destruct (C129_rates _ _ _ _ W64 _ C R) as [A B]. cbn [from of many before] in A, B.
  split; [apply (A 12345); discriminate|]. assert (E : 10 ^ 18 = 100 + (10 ^ 16 - 1) * 100) by (vm_compute; reflexivity). assert (F : 97 * (10 ^ 16 - 1) = 0 + (10 ^ 16 - 1) * 97) by (vm_compute; reflexivity).
  split; [rewrite E, F|].
  { assert (L : 100 + (10 ^ 16 - 1) * 100 <= 2 ^ 64) by (vm_compute; discriminate). exact (B _ L). }
  split; [apply (wrong_at_iff LeftRight); [exact C|reflexivity|vm_compute; reflexivity]|].
  split; [intros W; apply (wrong_at_iff LeftRight) in W; [vm_compute in W; discriminate|exact C|reflexivity]|].
  cbn [rates List.map fst In]. intuition discriminate.
Qed.
