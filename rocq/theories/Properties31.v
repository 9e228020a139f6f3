(** * Property C116: what the "@decimal" lists of the CLDR data say *)
From Verif Require Import Base LangId GenRs CldrParser Ast Spec Cldr PluralRules Tables Operands InputSpec Conformance ListProps DecListSpec DecListProps.
Open Scope N_scope.

(** C116.  [data_rule] as in C115. *)
Theorem C116_decimals id rules c r : data_rule CARDINAL id rules c r ->
  (has_decimals r = true <-> exists x f, fraction f /\ cldr_select rules (mkDecimal x f) c).
Proof. exact (C116_has_lemma id rules c r). Qed.
Print Assumptions C116_decimals.
Theorem C116_ellipsis id rules c r : data_rule CARDINAL id rules c r ->
  (more_decimals r = true <-> forall k, exists x f, k <= x /\ fraction f /\ cldr_select rules (mkDecimal x f) c).
Proof. exact (C116_more_lemma id rules c r). Qed.
Print Assumptions C116_ellipsis.
Theorem C116_ordinal id rules c r : data_rule ORDINAL id rules c r -> has_decimals r = false.
Proof. exact (C116_ordinal_lemma id rules c r). Qed.
Print Assumptions C116_ordinal.

(** [select] on numerals with a decimal point gives the categories that have a list, and only these; all locales, also
    those that are wrong for some numbers *)
Theorem C116_select how w id pr rules c r : create how id CARDINAL = Ok pr -> data_rule CARDINAL id rules c r ->
  (has_decimals r = true <-> exists s, In 46 s /\ select w pr (InStr s) = Ok c).
Proof. exact (C116_used_lemma how w id pr rules c r). Qed.
Print Assumptions C116_select.
(** whatever the type in which the number is passed *)
Theorem C116_never how w id pr rules c r x po : create how id CARDINAL = Ok pr -> data_rule CARDINAL id rules c r -> has_decimals r = false ->
  converted w x = Ok po -> op_v po <> 0 -> select w pr x <> Ok c.
Proof. exact (C116_never_lemma how w id pr rules c r x po). Qed.
Print Assumptions C116_never.

(** Czech "few" has no list, and "2.0" is "many"; Romanian, wrong for some integers, has no list for "other";
    the list of Amharic "one" ends, that of "other" goes on *)
Example C116_case :
  (exists rules r pr po, data_rule CARDINAL (lang "cs") rules FEW r /\ has_decimals r = false /\
    create Halving (lang "cs") CARDINAL = Ok pr /\ select W64 pr (InUnsigned 2) = Ok FEW /\
    converted W64 (InStr (bs "2.0")) = Ok po /\ op_v po <> 0 /\ select W64 pr (InStr (bs "2.0")) = Ok MANY) /\
  (exists rules r, data_rule CARDINAL (lang "ro") rules OTHER r /\ has_decimals r = false) /\
  (exists rules r, data_rule CARDINAL (lang "am") rules ONE r /\ has_decimals r = true /\ more_decimals r = false) /\
  (exists rules r, data_rule CARDINAL (lang "am") rules OTHER r /\ has_decimals r = true /\ more_decimals r = true) /\
  (exists rules r, data_rule ORDINAL (lang "it") rules MANY r).
Proof.
  split; [|split; [|split; [|split]]].
  - destruct (rule_such_ok CARDINAL "cs" "pluralRule-count-few" FEW (fun _ r => negb (has_decimals r))) as (rules & r & D & P); [vm_compute; reflexivity|].
    apply Bool.negb_true_iff in P. exists rules, r. eexists. eexists. split; [exact D|]. split; [exact P|]. split; [vm_compute; reflexivity|].
    split; [vm_compute; reflexivity|]. split; [vm_compute; reflexivity|]. split; [discriminate|vm_compute; reflexivity].
  - destruct (rule_such_ok CARDINAL "ro" "pluralRule-count-other" OTHER (fun _ r => negb (has_decimals r))) as (rules & r & D & P); [vm_compute; reflexivity|].
    apply Bool.negb_true_iff in P. exists rules, r. split; [exact D|exact P].
  - destruct (rule_such_ok CARDINAL "am" "pluralRule-count-one" ONE (fun _ r => has_decimals r && negb (more_decimals r))) as (rules & r & D & P); [vm_compute; reflexivity|].
    rewrite Bool.andb_true_iff, Bool.negb_true_iff in P. destruct P as [P Q]. exists rules, r. split; [exact D|]. split; [exact P|exact Q].
  - destruct (rule_such_ok CARDINAL "am" "pluralRule-count-other" OTHER (fun _ r => has_decimals r && more_decimals r)) as (rules & r & D & P); [vm_compute; reflexivity|].
    rewrite Bool.andb_true_iff in P. destruct P as [P Q]. exists rules, r. split; [exact D|]. split; [exact P|exact Q].
  - destruct (rule_such_ok ORDINAL "it" "pluralRule-count-many" MANY (fun _ _ => true)) as (rules & r & D & _); [vm_compute; reflexivity|].
    exists rules, r. exact D.
Qed.
