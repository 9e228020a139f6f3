(** * Property C118: finitely much of a number decides its category *)
From Verif Require Import Base LangId GenRs Ast Spec Cldr PluralRules Tables Operands InputSpec Conformance ConformanceProps ApiProps CodeSpec GenMeaning Represents Order RepeatSpec ViewSpec ViewProps.
Open Scope N_scope.

(** C118.  Numbers with the same view have the same category, by UTS #35 and by [select] *)
Theorem C118_cldr B P V F Q rules d d' c : viewed B P V F Q rules -> P <> 0 -> Q <> 0 -> F <> 0 -> proper d -> proper d' ->
  view B P V F Q d = view B P V F Q d' -> (cldr_select rules d c <-> cldr_select rules d' c).
Proof. exact (C118_cldr_lemma B P V F Q rules d d' c). Qed.
Print Assumptions C118_cldr.
Theorem C118_select how w id t pr rules B P V F Q s s' d d' : create how id t = Ok pr -> In (id, rules) (cldr t) -> viewed B P V F Q rules ->
  P <> 0 -> Q <> 0 -> F <> 0 -> B <= 2 ^ 53 -> numeral s d -> numeral s' d' -> small d -> small d' -> view B P V F Q d = view B P V F Q d' ->
  exists c, select w pr (InStr s) = Ok c /\ select w pr (InStr s') = Ok c.
Proof. exact (C118_select_lemma how w id t pr rules B P V F Q s s' d d'). Qed.
Print Assumptions C118_select.
(** The rules of all shipped locales *)
Theorem C118_six t id rules : In (id, rules) (cldr t) -> viewed 20001 1000000 3 2 100 rules.
Proof. exact (C118_six_lemma t id rules). Qed.
Print Assumptions C118_six.
Theorem C118_three t id rules : In (id, rules) (cldr t) -> (t = CARDINAL -> id <> lang "br" /\ id <> lang "kw") -> viewed 1001 1000 3 2 100 rules.
Proof. exact (C118_three_lemma t id rules). Qed.
Print Assumptions C118_three.
(** A locale that is right for the integer parts below [B + P] with up to three fraction digits is right for all
    numbers of the precision of [f64] *)
Theorem C118_suite how w id t pr rules B P : create how id t = Ok pr -> In (id, rules) (cldr t) -> viewed B P 3 2 100 rules ->
  P <> 0 -> B + P <= 2 ^ 43 ->
  (forall s d, numeral s d -> d_int d < B + P -> uts_v d <= 3 -> exists c, select w pr (InStr s) = Ok c /\ cldr_select rules d c) ->
  forall s d, numeral s d -> small d -> exists c, select w pr (InStr s) = Ok c /\ cldr_select rules d c.
Proof. exact (C118_suite_lemma how w id t pr rules B P). Qed.
Print Assumptions C118_suite.

(** The same for inputs of all types ([ordinary], as in C106) *)
Theorem C118_inputs how id t pr rules B P V F Q x x' d d' : create how id t = Ok pr -> In (id, rules) (cldr t) -> viewed B P V F Q rules ->
  P <> 0 -> Q <> 0 -> F <> 0 -> B <= 2 ^ 53 -> ordinary x d -> ordinary x' d' -> view B P V F Q d = view B P V F Q d' ->
  exists c, select W64 pr x = Ok c /\ select W64 pr x' = Ok c.
Proof. exact (C118_inputs_lemma how id t pr rules B P V F Q x x' d d'). Qed.
Print Assumptions C118_inputs.
Theorem C118_suite_inputs how id t pr rules B P : create how id t = Ok pr -> In (id, rules) (cldr t) -> viewed B P 3 2 100 rules ->
  P <> 0 -> B + P <= 2 ^ 43 ->
  (forall s d, numeral s d -> d_int d < B + P -> uts_v d <= 3 -> exists c, select W64 pr (InStr s) = Ok c /\ cldr_select rules d c) ->
  forall x d, ordinary x d -> exists c, select W64 pr x = Ok c /\ cldr_select rules d c.
Proof. exact (C118_suite_all_lemma how id t pr rules B P). Qed.
Print Assumptions C118_suite_inputs.

(** Macedonian: two numerals with the same view, and two that differ in the second last digit only *)
Example C118_case : exists rules pr, In (lang "mk", rules) (cldr CARDINAL) /\ create Halving (lang "mk") CARDINAL = Ok pr /\
  viewed 1001 1000 3 2 100 rules /\
  exists d d' d2, numeral (bs "-3005.7321") d /\ numeral (bs "91005.121") d' /\ numeral (bs "91005.111") d2 /\ small d /\ small d' /\ small d2 /\
    view 1001 1000 3 2 100 d = view 1001 1000 3 2 100 d' /\ view 1001 1000 3 2 100 d <> view 1001 1000 3 2 100 d2 /\
    select W64 pr (InStr (bs "-3005.7321")) = Ok ONE /\ select W64 pr (InStr (bs "91005.121")) = Ok ONE /\
    select W64 pr (InStr (bs "91005.111")) = Ok OTHER.
Proof.
  destruct (find_rules CARDINAL (lang "mk")) as [rules|] eqn:F; [|vm_compute in F; discriminate].
  apply find_rules_in in F. exists rules. eexists. split; [exact F|]. split; [vm_compute; reflexivity|].
  split; [apply (C118_three CARDINAL (lang "mk")); [exact F|intros _; split; discriminate]|].
  exists (mkDecimal 3005 [7; 3; 2; 1]), (mkDecimal 91005 [1; 2; 1]), (mkDecimal 91005 [1; 1; 1]).
  split. { exists [45], (bs "3005"), (bs "7321"). repeat split; try easy; [now right|repeat constructor; unfold digit_char; easy..]. }
  split. { exists [], (bs "91005"), (bs "121"). repeat split; try easy; [now left|repeat constructor; unfold digit_char; easy..]. }
  split. { exists [], (bs "91005"), (bs "111"). repeat split; try easy; [now left|repeat constructor; unfold digit_char; easy..]. }
  split; [split; vm_compute; easy|]. split; [split; vm_compute; easy|]. split; [split; vm_compute; easy|].
  split; [vm_compute; reflexivity|]. split; [vm_compute; discriminate|]. split; [vm_compute; reflexivity|]. split; vm_compute; reflexivity.
Qed.
Example C118_inputs_case : exists pr, create Halving (lang "ru") ORDINAL = Ok pr /\
  ordinary (InSigned (-7004)) (mkDecimal 7004 []) /\ ordinary (InUnsigned 1004) (mkDecimal 1004 []) /\
  view 1001 1000 3 2 100 (mkDecimal 7004 []) = view 1001 1000 3 2 100 (mkDecimal 1004 []) /\ select W64 pr (InSigned (-7004)) = Ok OTHER.
Proof.
  eexists. split; [vm_compute; reflexivity|]. split; [exact (ord_signed (-7004) eq_refl)|]. split; [exact (ord_unsigned 1004 eq_refl)|].
  split; vm_compute; reflexivity.
Qed.
(** Macedonian meets the hypotheses of [C118_suite] *)
Example C118_suite_case : exists rules pr, In (lang "mk", rules) (cldr CARDINAL) /\ create Halving (lang "mk") CARDINAL = Ok pr /\
  viewed 1001 1000 3 2 100 rules /\
  forall s d, numeral s d -> d_int d < 2001 -> uts_v d <= 3 -> exists c, select W64 pr (InStr s) = Ok c /\ cldr_select rules d c.
Proof.
  destruct (find_rules CARDINAL (lang "mk")) as [rules|] eqn:F; [|vm_compute in F; discriminate].
  apply find_rules_in in F. destruct (create Halving (lang "mk") CARDINAL) as [pr| |] eqn:C; [|vm_compute in C; discriminate..].
  exists rules, pr. split; [exact F|]. split; [reflexivity|].
  split; [apply (C118_three CARDINAL (lang "mk")); [exact F|intros _; split; discriminate]|].
  intros s d Nu I V. assert (S : small d) by (apply (suite_small 1001 1000); [discriminate|exact (numeral_proper s d Nu)|exact I|exact V]).
  destruct (follows_str Halving (lang "mk") CARDINAL pr W64 s d C Nu S) as (rules' & c & I' & Sc & Cc).
  - intro X. apply mem_in in X. vm_compute in X. discriminate.
  - intro X. apply mem_in in X. vm_compute in X. discriminate.
  - exists c. split; [exact Sc|]. rewrite (cldr_unique CARDINAL (lang "mk") rules rules' F I'). exact Cc.
Qed.
