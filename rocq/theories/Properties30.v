(** * Property C115: what the "@integer" lists of the CLDR data say *)
From Verif Require Import Base LangId GenRs CldrParser Ast Spec Cldr PluralRules Tables Operands Conformance ListSpec ListProps.
Open Scope N_scope.

(** C115.  [data_rule t id rules c r]: [r] is what the parser makes of the text of
    category [c] of the locale [id]. *)
Theorem C115_ellipsis t id rules c r : data_rule t id rules c r ->
  (has_more r = true <-> forall k, exists x, k <= x /\ cldr_select rules (mkDecimal x []) c).
Proof. exact (C115_more_lemma t id rules c r). Qed.
Print Assumptions C115_ellipsis.
Theorem C115_listed t id rules c r x : data_rule t id rules c r -> on_list r x -> cldr_select rules (mkDecimal x []) c.
Proof. exact (C115_listed_lemma t id rules c r x). Qed.
Print Assumptions C115_listed.

(** full statement: a list without "…" lists all; false of the list of Central Atlas
    Tamazight, "0, 1, 11~24", whose rule includes 25 to 99 *)
Theorem C115_complete_refuted : exists rules r, data_rule CARDINAL (lang "tzm") rules ONE r /\ has_more r = false /\
  cldr_select rules (mkDecimal 25 []) ONE /\ ~ on_list r 25.
Proof.
  destruct (rule_such_ok CARDINAL "tzm" "pluralRule-count-one" ONE
    (fun rules r => negb (has_more r) && cldr_selectb rules (mkDecimal 25 []) ONE && negb (on_listb r 25))) as (rules & r & D & P); [vm_compute; reflexivity|].
  rewrite !Bool.andb_true_iff, !Bool.negb_true_iff in P. destruct P as [[P1 P2] P3]. exists rules, r.
  split; [exact D|]. split; [exact P1|]. split; [now apply cldr_selectb_iff|]. rewrite <- on_listb_iff. congruence.
Qed.
Print Assumptions C115_complete_refuted.
Theorem C115_complete_exactly t id rules c r x : data_rule t id rules c r -> has_more r = false ->
  ((on_list r x <-> cldr_select rules (mkDecimal x []) c) <-> ~ (t = CARDINAL /\ id = lang "tzm" /\ c = ONE /\ 25 <= x <= 99)).
Proof. exact (C115_complete_lemma t id rules c r x). Qed.
Print Assumptions C115_complete_exactly.
Theorem C115_complete_partial t id rules c r x : data_rule t id rules c r -> has_more r = false -> id <> lang "tzm" ->
  (on_list r x <-> cldr_select rules (mkDecimal x []) c).
Proof. intros D M N. apply (C115_complete_lemma t id rules c r x D M). tauto. Qed.
Print Assumptions C115_complete_partial.

(** so [select] gives the category to the listed integers and no others *)
Theorem C115_select how w id t pr rules c r x : create how id t = Ok pr -> ~ In id (integer_wrong t) -> x < 2 ^ 64 ->
  data_rule t id rules c r -> has_more r = false -> ~ (t = CARDINAL /\ id = lang "tzm" /\ c = ONE) ->
  (select w pr (InUnsigned x) = Ok c <-> on_list r x).
Proof. exact (C115_select_lemma how w id t pr rules c r x). Qed.
Print Assumptions C115_select.

(** Welsh "many" is 6 and nothing else; Polish "many" goes on after 1000005, and Polish "other" has no integers *)
Example C115_case :
  (exists rules r pr, data_rule CARDINAL (lang "cy") rules MANY r /\ has_more r = false /\ on_list r 6 /\ ~ on_list r 7 /\
    ~ In (lang "cy") (integer_wrong CARDINAL) /\ create Halving (lang "cy") CARDINAL = Ok pr /\ select W64 pr (InUnsigned 6) = Ok MANY) /\
  (exists rules r, data_rule CARDINAL (lang "pl") rules MANY r /\ has_more r = true /\ on_list r 1000000 /\ ~ on_list r 1000005 /\
    cldr_select rules (mkDecimal 1000005 []) MANY) /\
  (exists rules r, data_rule CARDINAL (lang "pl") rules OTHER r /\ has_more r = false /\ ~ on_list r 0) /\
  (exists rules r, data_rule ORDINAL (lang "it") rules OTHER r /\ has_more r = true /\ on_list r 0).
Proof.
  split; [|split; [|split]].
  - destruct (rule_such_ok CARDINAL "cy" "pluralRule-count-many" MANY
      (fun rules r => negb (has_more r) && on_listb r 6 && negb (on_listb r 7))) as (rules & r & D & P); [vm_compute; reflexivity|].
    rewrite !Bool.andb_true_iff, !Bool.negb_true_iff in P. destruct P as [[P1 P2] P3]. exists rules, r. eexists.
    split; [exact D|]. rewrite <- !on_listb_iff. split; [exact P1|]. split; [exact P2|]. split; [congruence|].
    split; [rewrite <- mem_in; vm_compute; discriminate|]. split; [vm_compute; reflexivity|vm_compute; reflexivity].
  - destruct (rule_such_ok CARDINAL "pl" "pluralRule-count-many" MANY
      (fun rules r => has_more r && on_listb r 1000000 && negb (on_listb r 1000005) && cldr_selectb rules (mkDecimal 1000005 []) MANY))
      as (rules & r & D & P); [vm_compute; reflexivity|].
    rewrite !Bool.andb_true_iff, !Bool.negb_true_iff in P. destruct P as [[[P1 P2] P3] P4]. exists rules, r.
    split; [exact D|]. rewrite <- !on_listb_iff. split; [exact P1|]. split; [exact P2|]. split; [congruence|].
    now apply cldr_selectb_iff.
  - destruct (rule_such_ok CARDINAL "pl" "pluralRule-count-other" OTHER
      (fun rules r => negb (has_more r) && negb (on_listb r 0))) as (rules & r & D & P); [vm_compute; reflexivity|].
    rewrite !Bool.andb_true_iff, !Bool.negb_true_iff in P. destruct P as [P1 P2]. exists rules, r.
    split; [exact D|]. rewrite <- on_listb_iff. split; [exact P1|congruence].
  - destruct (rule_such_ok ORDINAL "it" "pluralRule-count-other" OTHER
      (fun rules r => has_more r && on_listb r 0)) as (rules & r & D & P); [vm_compute; reflexivity|].
    rewrite !Bool.andb_true_iff in P. destruct P as [P1 P2]. exists rules, r.
    split; [exact D|]. rewrite <- on_listb_iff. split; [exact P1|exact P2].
Qed.
