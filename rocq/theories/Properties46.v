(** * Property C131: the last integer of a category *)
From Verif Require Import Base LangId GenRs Operands Ast Spec PluralRules Tables ApiProps Conformance LastSeen.
Open Scope N_scope.

(** a listed category is given to the listed integer and to no larger one *)
Theorem C131_last how id t pr w c m ids : create how id t = Ok pr -> In (c, m, ids) (last_seen t) -> In id ids ->
  select w pr (InUnsigned m) = Ok c /\ forall x, x < 2 ^ 64 -> select w pr (InUnsigned x) = Ok c -> x <= m.
Proof. exact (C131_lemma how id t pr w c m ids). Qed.
Print Assumptions C131_last.
(** any other category that an integer gets is met again and again *)
Theorem C131_again how id t pr w c x0 a : create how id t = Ok pr -> (forall m ids, In (c, m, ids) (last_seen t) -> ~ In id ids) ->
  x0 < 2 ^ 64 -> select w pr (InUnsigned x0) = Ok c -> fst (from_run t id) <= a -> a + snd (from_run t id) <= 2 ^ 64 ->
  exists x, a <= x /\ x < a + snd (from_run t id) /\ select w pr (InUnsigned x) = Ok c.
Proof. exact (C131_again_lemma how id t pr w c x0 a). Qed.
Print Assumptions C131_again.

(** Belarusian: 4 is the last integer that is FEW, while ONE is met again: 21, 31, ... *)
Example C131_case : exists pr, create Halving (lang "be") CARDINAL = Ok pr /\
  In (FEW, 4, map lang ["be"; "cs"; "sk"]%string) (last_seen CARDINAL) /\
  select W64 pr (InUnsigned 4) = Ok FEW /\ select W64 pr (InUnsigned 24) = Ok OTHER /\
  (forall m ids, In (ONE, m, ids) (last_seen CARDINAL) -> ~ In (lang "be") ids) /\
  select W64 pr (InUnsigned 1000001) = Ok ONE /\ from_run CARDINAL (lang "be") = (801, 100).
Proof.
  destruct (create Halving (lang "be") CARDINAL) as [pr| |] eqn:C; [|vm_compute in C; discriminate|vm_compute in C; discriminate].
  exists pr. split; [reflexivity|]. vm_compute in C. injection C as <-.
  split; [cbn [last_seen In]; tauto|]. split; [vm_compute; reflexivity|]. split; [vm_compute; reflexivity|]. split; [|split; vm_compute; reflexivity].
  intros m ids I J. pose proof (last_of_some CARDINAL (lang "be") ONE m ids I J) as L. vm_compute in L. discriminate.
Qed.
