(** * Property C117: only the last digits of the integer part matter *)
From Verif Require Import Base LangId GenRs Ast Spec Cldr PluralRules Tables Operands InputSpec Conformance CodeSpec BehaviourSpec RepeatSpec RepeatProps.
Open Scope N_scope.

(** C117.  What UTS #35 says of rules that take remainders by divisors of [P] and compare with constants below [B] *)
Theorem C117_cldr B P rules f x y c : repeats B P rules -> P <> 0 -> B <= x -> B <= y -> x mod P = y mod P ->
  (cldr_select rules (mkDecimal x f) c <-> cldr_select rules (mkDecimal y f) c).
Proof. exact (repeats_uts B P rules f x y c). Qed.
Print Assumptions C117_cldr.
(** The code generated for such rules *)
Theorem C117_code B P rules s s' x y f po po' : repeats B P rules -> P <> 0 -> B <= 2 ^ 53 ->
  numeral s (mkDecimal x f) -> numeral s' (mkDecimal y f) -> operands_from_str s = Ok po -> operands_from_str s' = Ok po' ->
  keeps_integer (mkDecimal x f) -> keeps_integer (mkDecimal y f) -> B <= x -> B <= y -> x mod P = y mod P ->
  code_select rules po = code_select rules po'.
Proof. exact (C117_code_lemma B P rules s s' x y f po po'). Qed.
Print Assumptions C117_code.
(** [select], on strings with the same fraction digits and on unsigned integers *)
Theorem C117_select how w id t pr rules B P s s' x y f c c' : create how id t = Ok pr -> In (id, rules) (cldr t) ->
  repeats B P rules -> P <> 0 -> B <= 2 ^ 53 -> numeral s (mkDecimal x f) -> numeral s' (mkDecimal y f) ->
  keeps_integer (mkDecimal x f) -> keeps_integer (mkDecimal y f) -> B <= x -> B <= y -> x mod P = y mod P ->
  select w pr (InStr s) = Ok c -> select w pr (InStr s') = Ok c' -> c = c'.
Proof. exact (C117_select_lemma how w id t pr rules B P s s' x y f c c'). Qed.
Print Assumptions C117_select.
Theorem C117_unsigned how w id t pr rules B P x y : create how id t = Ok pr -> In (id, rules) (cldr t) ->
  repeats B P rules -> P <> 0 -> B <= 2 ^ 53 -> B <= x -> B <= y -> x mod P = y mod P ->
  select w pr (InUnsigned x) = select w pr (InUnsigned y).
Proof. exact (C117_u64_lemma how w id t pr rules B P x y). Qed.
Print Assumptions C117_unsigned.
(** Six digits are enough for every shipped locale, three for all but Breton and Cornish cardinals *)
Theorem C117_six t id rules : In (id, rules) (cldr t) -> repeats 20001 1000000 rules.
Proof. exact (C117_six_lemma t id rules). Qed.
Print Assumptions C117_six.
Theorem C117_three t id rules : In (id, rules) (cldr t) -> (t = CARDINAL -> id <> lang "br" /\ id <> lang "kw") -> repeats 1001 1000 rules.
Proof. exact (C117_three_lemma t id rules). Qed.
Print Assumptions C117_three.

(** The hypotheses can be met; three digits are not enough for Breton, and 20000 is not large enough for Cornish *)
Example C117_case :
  (exists rules pr s s' x y f, In (lang "lt", rules) (cldr CARDINAL) /\ create Halving (lang "lt") CARDINAL = Ok pr /\
    numeral s (mkDecimal x f) /\ numeral s' (mkDecimal y f) /\ keeps_integer (mkDecimal x f) /\ keeps_integer (mkDecimal y f) /\
    f <> [] /\ x <> y /\ 1001 <= x /\ 1001 <= y /\ x mod 1000 = y mod 1000 /\ repeats 1001 1000 rules /\
    select W64 pr (InStr s) = Ok MANY /\ select W64 pr (InStr s') = Ok MANY) /\
  (exists pr, create Halving (lang "br") CARDINAL = Ok pr /\
    select W64 pr (InUnsigned 2000) = Ok OTHER /\ select W64 pr (InUnsigned 1000000) = Ok MANY) /\
  (exists pr, create Halving (lang "kw") CARDINAL = Ok pr /\
    select W64 pr (InUnsigned 20000) = Ok TWO /\ select W64 pr (InUnsigned 1020000) = Ok OTHER).
Proof.
  split; [|split]; [|eexists; repeat split; vm_compute; reflexivity..].
  destruct (find_rules CARDINAL (lang "lt")) as [rules|] eqn:F; [|vm_compute in F; discriminate].
  apply find_rules_in in F. exists rules. eexists. exists (bs "2021.5"), (bs "77021.5"), 2021, 77021, [5].
  assert (R : repeats 1001 1000 rules) by (apply (C117_three CARDINAL (lang "lt")); [exact F|intros _; split; discriminate]).
  split; [exact F|]. split; [vm_compute; reflexivity|].
  split. { exists [], (bs "2021"), (bs "5"). repeat split; try easy; [now left|repeat constructor; unfold digit_char; easy..]. }
  split. { exists [], (bs "77021"), (bs "5"). repeat split; try easy; [now left|repeat constructor; unfold digit_char; easy..]. }
  split; [left; discriminate|]. split; [left; discriminate|]. split; [discriminate|]. split; [discriminate|].
  split; [discriminate|]. split; [discriminate|]. split; [reflexivity|]. split; [exact R|]. split; vm_compute; reflexivity.
Qed.
