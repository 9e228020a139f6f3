(** * Property C121: exactly which numerals of any length get a wrong category *)
From Coq Require Import Lia Floats.SpecFloat.
From Flocq Require Import Core IEEE754.BinarySingleNaN.
From Verif Require Import Base F64 LangId GenRs Ast Spec SpecR Cldr Operands PluralRules Tables ApiProps GenMeaning Conformance BehaviourSpec OperandsFacts FloatProps
  WrongSpec LongSpec LongProps.
Open Scope N_scope.

(** C121.  A numeral that is not rounded to an integer gets a wrong category exactly
    if C79's tables say so, however long it is; one that is rounded to [k] exactly if
    the table of rounded numbers says so, or, when it is silent, C79's *)
Theorem C121_long how id t pr w s d : create how id t = Ok pr -> numeral s d -> accepted s -> keeps_integer d ->
  exists rules c, In (id, rules) (cldr t) /\ select w pr (InStr s) = Ok c /\
    (forall k, rounded_to d k -> (cldr_select rules d c <-> rounded_wrong t id k d = false)) /\
    ((forall k, ~ rounded_to d k) -> (cldr_select rules d c <-> wrong_number t id d = false)).
Proof. exact (C121_lemma how id t pr w s d). Qed.
Print Assumptions C121_long.
(** Every entry of the table that says "wrong" has its numerals *)
Theorem C121_happens how id t pr w k i f : create how id t = Ok pr -> rounding t id k i f = Some true ->
  exists s d rules c, numeral s d /\ accepted s /\ keeps_integer d /\ rounded_to d k /\
    In (id, rules) (cldr t) /\ select w pr (InStr s) = Ok c /\ ~ cldr_select rules d c.
Proof. exact (C121_happens_lemma how id t pr w k i f). Qed.
Print Assumptions C121_happens.
(** Short numerals are not rounded *)
Theorem C121_short d : proper d -> small d -> forall k, k < 2 ^ 53 -> ~ rounded_to d k.
Proof. exact (short_survives d). Qed.
Print Assumptions C121_short.

(** ** Concrete cases *)
Lemma rounded_by d k : uts_f d <> 0 -> dec64 (uts_num d) (- Z.of_N (uts_v d)) = f64_of_N k -> k <= 2 ^ 53 -> rounded_to d k.
Proof.
  intros Z E L. split; [exact Z|]. exists (f64_of_N k). destruct (F64Facts.f64_of_N_exact k L) as (A & B & _).
  split; [rewrite dec_value, <- E; apply dec64_nearest'|auto].
Qed.
Definition nines : decimal := mkDecimal 0 (repeat 9 19).
Definition after_one : decimal := mkDecimal 1 (repeat 0 15 ++ [1]).
Example C121_case :
  numeral (bs "1.0000000000000001") after_one /\ accepted (bs "1.0000000000000001") /\ keeps_integer after_one /\ rounded_to after_one 1 /\
  numeral (bs "0.9999999999999999999") nines /\ accepted (bs "0.9999999999999999999") /\ keeps_integer nines /\ rounded_to nines 1 /\
  (* wrong in Afrikaans, in Amharic above 1 only, never in Danish *)
  rounded_wrong CARDINAL (lang "af") 1 after_one = true /\ rounded_wrong CARDINAL (lang "af") 1 nines = true /\
  rounded_wrong CARDINAL (lang "am") 1 after_one = true /\ rounded_wrong CARDINAL (lang "am") 1 nines = false /\
  rounded_wrong CARDINAL (lang "da") 1 after_one = false /\
  (exists pr, create Halving (lang "af") CARDINAL = Ok pr /\ select W64 pr (InStr (bs "0.9999999999999999999")) = Ok ONE) /\
  (exists pr, create Halving (lang "am") CARDINAL = Ok pr /\ select W64 pr (InStr (bs "0.9999999999999999999")) = Ok ONE) /\
  (exists pr, create Halving (lang "da") CARDINAL = Ok pr /\ select W64 pr (InStr (bs "0.9999999999999999999")) = Ok ONE).
Proof.
  split. { exists (bs ""), (bs "1"), (bs "0000000000000001"); split; [now left|];
    split; [repeat constructor; unfold digit_char; easy|]; split; [easy|]; split; [repeat constructor; unfold digit_char; easy|]; split; reflexivity. }
  split; [apply accepted_iff; eexists; vm_compute; reflexivity|]. split; [left; vm_compute; discriminate|].
  split; [apply rounded_by; [vm_compute; discriminate|vm_compute; reflexivity|vm_compute; discriminate]|].
  split. { exists (bs ""), (bs "0"), (bs "9999999999999999999"); split; [now left|];
    split; [repeat constructor; unfold digit_char; easy|]; split; [easy|]; split; [repeat constructor; unfold digit_char; easy|]; split; reflexivity. }
  split; [apply accepted_iff; eexists; vm_compute; reflexivity|]. split; [left; vm_compute; discriminate|].
  split; [apply rounded_by; [vm_compute; discriminate|vm_compute; reflexivity|vm_compute; discriminate]|].
  do 5 (split; [vm_compute; reflexivity|]).
  split; [eexists; split; [vm_compute; reflexivity|vm_compute; reflexivity]|].
  split; (eexists; split; [vm_compute; reflexivity|vm_compute; reflexivity]).
Qed.
(** rounding can also make a wrong category right: Breton, 0.000...01 *)
Definition tiny : decimal := mkDecimal 0 (repeat 0 330 ++ [1]).
Example C121_luck : rounded_to tiny 0 /\ wrong_number CARDINAL (lang "br") tiny = true /\ rounded_wrong CARDINAL (lang "br") 0 tiny = false /\
  wrong_number CARDINAL (lang "br") (mkDecimal 0 [1]) = true /\ (forall k, k < 2 ^ 53 -> ~ rounded_to (mkDecimal 0 [1]) k) /\
  rounded_wrong CARDINAL (lang "si") 0 tiny = false /\ rounded_wrong CARDINAL (lang "si") 0 (mkDecimal 0 (repeat 0 330 ++ [2])) = true.
Proof.
  split; [apply rounded_by; [vm_compute; discriminate|vm_compute; reflexivity|vm_compute; discriminate]|].
  do 3 (split; [vm_compute; reflexivity|]). split; [|split; vm_compute; reflexivity].
  apply C121_short; [repeat constructor|split; vm_compute; congruence].
Qed.
