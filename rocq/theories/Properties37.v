(** * Property C122: integers written out in full *)
From Coq Require Import Lia Floats.SpecFloat.
From Flocq Require Import Core IEEE754.BinarySingleNaN.
From Verif Require Import Base F64 LangId GenRs Spec SpecR Cldr Operands PluralRules Tables ApiProps GenMeaning Conformance BehaviourSpec OperandsFacts FloatProps
  WrongSpec IntTextSpec IntTextProps.
Open Scope N_scope.

(** C122.  Every integer is read as some 64-bit integer, itself up to 2^53 *)
Theorem C122_read D : (exists u, read_as D u) /\ (forall u u', read_as D u -> read_as D u' -> u = u') /\ (D <= 2 ^ 53 -> read_as D D).
Proof. exact (C122_read_lemma D). Qed.
Print Assumptions C122_read.
(** The text gets the category of that integer passed as a u64 *)
Theorem C122_same how id t pr w s D u : create how id t = Ok pr -> numeral s (mkDecimal D []) -> read_as D u ->
  u < 2 ^ 64 /\ select w pr (InStr s) = select w pr (InUnsigned u).
Proof. exact (C122_same_lemma how id t pr w s D u). Qed.
Print Assumptions C122_same.
(** which is right for that integer unless C79 lists it, and then right for the text exactly if both have the same category *)
Theorem C122_exactly how id t pr w s D u : create how id t = Ok pr -> numeral s (mkDecimal D []) -> read_as D u ->
  exists rules c, In (id, rules) (cldr t) /\ select w pr (InStr s) = Ok c /\
    (cldr_select rules (mkDecimal u []) c <-> wrong_number t id (mkDecimal u []) = false) /\
    (wrong_number t id (mkDecimal u []) = false ->
      (cldr_select rules (mkDecimal D []) c <-> forall c', cldr_select rules (mkDecimal D []) c' <-> cldr_select rules (mkDecimal u []) c')).
Proof. exact (C122_exactly_lemma how id t pr w s D u). Qed.
Print Assumptions C122_exactly.
(** Locales in which integers of any length are right, and the others *)
Theorem C122_right how id t pr w s D : create how id t = Ok pr -> BehaviourSpec.listed id (last_digits_matter t) = false ->
  numeral s (mkDecimal D []) ->
  exists rules c, In (id, rules) (cldr t) /\ select w pr (InStr s) = Ok c /\ cldr_select rules (mkDecimal D []) c.
Proof. exact (C122_right_lemma how id t pr w s D). Qed.
Print Assumptions C122_right.
Theorem C122_matter how id t pr w : create how id t = Ok pr -> BehaviourSpec.listed id (last_digits_matter t) = true ->
  exists s D rules c, numeral s (mkDecimal D []) /\ 2 ^ 53 < D < 2 ^ 64 /\ In (id, rules) (cldr t) /\
    select w pr (InStr s) = Ok c /\ ~ cldr_select rules (mkDecimal D []) c.
Proof. exact (C122_matter_lemma how id t pr w). Qed.
Print Assumptions C122_matter.

(** ** Concrete cases *)
Definition hundred_quintillion_one : bytes := bs "100000000000000000001".
Example C122_case :
  numeral (bs "9007199254740993") (mkDecimal 9007199254740993 []) /\ read_as 9007199254740993 9007199254740992 /\
  numeral hundred_quintillion_one (mkDecimal 100000000000000000001 []) /\ read_as 100000000000000000001 18446744073709551615 /\
  numeral (bs "1" ++ repeat 48 400)%list (mkDecimal (10 ^ 400) []) /\ read_as (10 ^ 400) 18446744073709551615 /\
  (* 993rd is read as 992nd *)
  (exists pr rules, create Halving (lang "en") ORDINAL = Ok pr /\ find_rules ORDINAL (lang "en") = Some rules /\
     select W64 pr (InStr (bs "9007199254740993")) = Ok TWO /\ cldr_selectb rules (mkDecimal 9007199254740993 []) FEW = true /\
     select W64 pr (InUnsigned 9007199254740993) = Ok FEW) /\
  (* Russian ...01 is read as ...15, English cardinals do not mind *)
  (exists pr rules, create Halving (lang "ru") CARDINAL = Ok pr /\ find_rules CARDINAL (lang "ru") = Some rules /\
     select W64 pr (InStr hundred_quintillion_one) = Ok MANY /\ cldr_selectb rules (mkDecimal 100000000000000000001 []) ONE = true) /\
  (exists pr, create Halving (lang "en") CARDINAL = Ok pr /\ select W64 pr (InStr (bs "1" ++ repeat 48 400)%list) = Ok OTHER) /\
  BehaviourSpec.listed (lang "en") (last_digits_matter CARDINAL) = false /\ BehaviourSpec.listed (lang "en") (last_digits_matter ORDINAL) = true.
Proof.
  assert (Nm : forall s, digits s -> s <> [] -> numeral s (mkDecimal (dval s) [])).
  { intros s A B. exists [], s, []. split; [now left|]. split; [exact A|]. split; [exact B|]. split; [constructor|]. rewrite app_nil_r. split; reflexivity. }
  assert (Rd : forall D u, float_to_u64 (f64_of_N D) = u -> read_as D u) by (intros D u <-; apply read_exists).
  split; [apply (Nm (bs "9007199254740993")); [apply DigitFacts.digits_forallb; vm_compute; reflexivity|discriminate]|].
  split; [apply Rd; vm_compute; reflexivity|].
  split; [apply (Nm hundred_quintillion_one); [apply DigitFacts.digits_forallb; vm_compute; reflexivity|discriminate]|].
  split; [apply Rd; vm_compute; reflexivity|].
  split.
  { replace (10 ^ 400) with (dval (bs "1" ++ repeat 48 400)%list) by (vm_compute; reflexivity).
    apply Nm; [apply DigitFacts.digits_forallb; vm_compute; reflexivity|discriminate]. }
  split; [apply Rd; vm_compute; reflexivity|].
  split. { eexists. eexists. split; [vm_compute; reflexivity|]. split; [vm_compute; reflexivity|].
    split; [vm_compute; reflexivity|]. split; [vm_compute; reflexivity|vm_compute; reflexivity]. }
  split. { eexists. eexists. split; [vm_compute; reflexivity|]. split; [vm_compute; reflexivity|].
    split; [vm_compute; reflexivity|vm_compute; reflexivity]. }
  split. { eexists. split; [vm_compute; reflexivity|vm_compute; reflexivity]. }
  split; vm_compute; reflexivity.
Qed.
