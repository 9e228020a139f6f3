(** * Property C125: which locales answer alike for integers *)
From Verif Require Import Base Operands Ast LangId GenRs RustExpr PluralRules Tables Cldr Spec ApiProps BehaviourSpec Conformance IntegerClasses.
Open Scope N_scope.

(** C125.  Cardinal or ordinal rules of two locales give every integer the same category exactly when they are on one line of the table *)
Theorem C125_integers how how' id t pr id' t' pr' w w' : create how id t = Ok pr -> create how' id' t' = Ok pr' ->
  ((forall x, x < 2 ^ 64 -> select w pr (InUnsigned x) = select w' pr' (InUnsigned x)) <-> alike t id t' id' = true).
Proof. exact (C125_lemma how how' id t pr id' t' pr' w w'). Qed.
Print Assumptions C125_integers.
(** The cardinal and the ordinal rules of one locale *)
Theorem C125_one_locale how how' id pr pr' w w' : create how id CARDINAL = Ok pr -> create how' id ORDINAL = Ok pr' ->
  ((forall x, x < 2 ^ 64 -> select w pr (InUnsigned x) = select w' pr' (InUnsigned x)) <-> listed id one_answer = true).
Proof. exact (C125_one_lemma how how' id pr pr' w w'). Qed.
Print Assumptions C125_one_locale.
(** Danish and English cardinals agree on integers but not on fractions, and so do French ordinals; Russian and Polish
    differ, and English cardinals and ordinals *)
Example C125_case : exists da en fr ru pl en', create Halving (lang "da") CARDINAL = Ok da /\ create Halving (lang "en") CARDINAL = Ok en /\
  create LeftRight (lang "fr") ORDINAL = Ok fr /\ create Halving (lang "ru") CARDINAL = Ok ru /\
  create Halving (lang "pl") CARDINAL = Ok pl /\ create Halving (lang "en") ORDINAL = Ok en' /\
  alike CARDINAL (lang "da") CARDINAL (lang "en") = true /\ alike CARDINAL (lang "da") ORDINAL (lang "fr") = true /\
  select W64 da (InStr (bs "0.1")) = Ok ONE /\ select W64 en (InStr (bs "0.1")) = Ok OTHER /\
  alike CARDINAL (lang "ru") CARDINAL (lang "pl") = false /\
  select W64 ru (InUnsigned 21) = Ok ONE /\ select W64 pl (InUnsigned 21) = Ok MANY /\
  listed (lang "en") one_answer = false /\ select W64 en (InUnsigned 2) = Ok OTHER /\ select W64 en' (InUnsigned 2) = Ok TWO.
Proof.
  do 6 eexists. do 6 (split; [vm_compute; reflexivity|]). repeat split; vm_compute; reflexivity.
Qed.
(** Japanese is one of the locales of [C125_one_locale] *)
Example C125_one_case : exists pr pr', create Halving (lang "ja") CARDINAL = Ok pr /\ create Halving (lang "ja") ORDINAL = Ok pr' /\
  listed (lang "ja") one_answer = true.
Proof. do 2 eexists. repeat (split; [vm_compute; reflexivity|]). vm_compute. reflexivity. Qed.
