(** * Properties C34-C44: the CLDR rule parser

    [parse_plural_rule] and [parse_plural_condition] are the model's entry
    points; the grammar [g_rule], the printer and the classes of trees are in
    Grammar.v. *)
From Coq Require Import Lia.
From Verif Require Import Base Ast CldrParser Spec Grammar ParserProps PrinterFacts ParserExact.
Open Scope N_scope.

(** C34 *)
Theorem C34_condition_round_trip {ptr : ptr_width} c : printable_condition c ->
  parse_plural_rule (print_condition c) = Ok (mkRule c None) /\
  parse_plural_condition (print_condition c) = Ok c.
Proof.
  intros P. assert (R : printable (mkRule c None)) by now split.
  apply rule_print in R. unfold print_rule in R. cbn [ru_condition ru_samples] in R. rewrite app_nil_r in R.
  split; [exact (rule_complete _ _ R)|exact (condition_complete' _ _ R)].
Qed.
Print Assumptions C34_condition_round_trip.
Example C34_case : let c := [[mkRel (mkExpr ON (Some 10)) OpEQ [RRange (mkRange 2 4); RValue 9];
                              mkRel (mkExpr OI None) OpNotIn [RRange (mkRange 12 14)]];
                             [mkRel (mkExpr OV None) OpIsNot [RValue 18446744073709551615]]] in
  printable_condition c /\
  print_condition c = bs "n % 10 = 2..4,9 and i not in 12..14 or v is not 18446744073709551615".
Proof. split; [repeat split; repeat constructor; discriminate|reflexivity]. Qed.

(** C35 *)
Theorem C35_rule_round_trip {ptr : ptr_width} r : printable r -> parse_plural_rule (print_rule r) = Ok r.
Proof. intros P. exact (rule_complete _ _ (rule_print r P)). Qed.
Print Assumptions C35_rule_round_trip.
Example C35_case : let r := mkRule [[mkRel (mkExpr OI None) OpIs [RValue 1]]]
    (Some (mkSamples (Some (mkSL [mkSR (mkDec 1 None) None; mkSR (mkDec 3 None) (Some (mkDec 7 None))] true))
                     (Some (mkSL [mkSR (mkDec 1 (Some 5)) None] false)))) in
  printable r /\ print_rule r = bs "i is 1 @integer 1, 3~7, … @decimal 1.5".
Proof. split; [repeat split; repeat constructor; try discriminate; now left|reflexivity]. Qed.

(** C36: free blanks around every token, as UTS #35 says; false: "n %10 = 1" *)
Theorem C36_spacing_refuted :
  exists c s, printable_condition c /\ spaced (condition_tokens c) s /\
    (forall r, parse_plural_rule s <> Ok r) /\ parse_plural_condition s <> Ok c.
Proof.
  exists [[mkRel (mkExpr ON (Some 10)) OpEQ [RValue 1]]], (bs "n %10 = 1").
  split; [repeat split; repeat constructor; discriminate|]. split.
  { apply (spaced_cons [] (bs "n") (bs "%") _ (bs " %10 = 1")); [constructor| |now intros _; exists 32; eexists; split; [reflexivity|left]].
    apply (spaced_cons (bs " ") (bs "%") (bs "10") _ (bs "10 = 1")); [repeat constructor| |].
    - apply (spaced_cons [] (bs "10") (bs "=") _ (bs " = 1")); [constructor| |now intros _; exists 32; eexists; split; [reflexivity|left]].
      apply (spaced_cons (bs " ") (bs "=") (bs "1") [] (bs " 1")); [repeat constructor| |now intros _; exists 32; eexists; split; [reflexivity|left]].
      apply (spaced_one (bs " ") (bs "1") []); repeat constructor.
    - intros (x & y & r & t & E & _ & X & _). destruct r as [|? [|? ?]]; try discriminate. injection E as <-. discriminate. }
  split; [intros r|]; vm_compute; discriminate.
Qed.
Print Assumptions C36_spacing_refuted.
(** What holds: every text of the grammar of Grammar.v. There blanks are free
    around operators and commas and before "%"; at least one is needed after "%",
    "mod" and "is", around "and" and "or", inside "is not", "not in" and "not
    within", and around "@integer" and "@decimal".
    Missing from the full statement: blanks at both ends and around "..", and no
    blank after "%". *)
Theorem C36_spacing_partial {ptr : ptr_width} r s : g_rule true r s ->
  parse_plural_rule s = Ok r /\ parse_plural_condition s = Ok (ru_condition r).
Proof. intros G. split; [exact (rule_complete r s G)|exact (condition_complete' r s G)]. Qed.
Print Assumptions C36_spacing_partial.
Example C36_case : g_rule true (mkRule [[mkRel (mkExpr ON (Some 10)) OpEQ [RValue 1; RValue 2]]] None)
  (bs "nmod  10=1  ," ++ [9] ++ bs "2").
Proof.
  apply (gru true _ (bs "nmod  10=1  ," ++ [9] ++ bs "2") None []).
  2: { apply (gsa None [] None []); constructor. }
  do 2 constructor.
  apply (gr true _ (bs "nmod  10") [] _ (bs "=") [] _ (bs "1  ," ++ [9] ++ bs "2")); try constructor; try discriminate.
  - apply (ge_mod ON [] (bs "mod") (bs "  ") 10 (bs "10")); [constructor|now left|split; [repeat constructor|discriminate]|].
    now apply value_by.
  - apply (sep_cons _ _ _ (bs "1") (bs "  ," ++ [9]) _ (bs "2")).
    + constructor. now apply value_by.
    + exists (bs "  "), [9]. split; [repeat constructor|]. split; [|reflexivity]. constructor; [now right|constructor].
    + do 2 constructor. now apply value_by.
Qed.

(** C37: false because of "n = ", whose relation has no value *)
Theorem C37_only_syntax_refuted :
  exists s r, parse_plural_rule s = Ok r /\ ru_condition r <> [] /\ ~ g_rule true r s.
Proof.
  exists (bs "n = "), (mkRule [[mkRel (mkExpr ON None) OpEQ []]] None).
  split; [vm_compute; reflexivity|]. split; [discriminate|]. intros G.
  inversion G as [c sc sa ss C S E1 E2]. subst c. clear - C.
  inversion C as [a s A E1 E2|a s p l t A P L E1 E2]; subst.
  2: inversion L.
  inversion A as [a s' R E1 E2|a s' p l t R P L E1 E2]; subst.
  2: inversion L.
  inversion R as [e es b1 o os b2 l ls X1 X2 X3 X4 X5 X6 E1 E2]; subst.
  destruct X6 as [X6|[X6 _]]; [inversion X6|discriminate].
Qed.
Print Assumptions C37_only_syntax_refuted.
(** What holds: apart from missing value lists, exactly the grammar is accepted,
    the complete input is consumed, and it denotes the returned tree. *)
Theorem C37_only_syntax_partial {ptr : ptr_width} s r : parse_plural_rule s = Ok r -> ru_condition r <> [] ->
  g_rule false r s /\ (lists_nonempty (ru_condition r) -> g_rule true r s).
Proof.
  intros H N. split.
  - destruct (rule_sound s r H) as [[_ ->]|[_ G]]; [easy|exact G].
  - intros L. exact (proj1 (rule_exact s r N L) H).
Qed.
Print Assumptions C37_only_syntax_partial.
Theorem C37_exactly_syntax_partial {ptr : ptr_width} s r : ru_condition r <> [] -> lists_nonempty (ru_condition r) ->
  (parse_plural_rule s = Ok r <-> g_rule true r s).
Proof. exact (rule_exact s r). Qed.
Print Assumptions C37_exactly_syntax_partial.
(** and exactly what is accepted: nothing before a sample marker; the grammar; or
    a condition without samples whose very last relation has no values *)
Theorem C37_accepts_exactly_partial {ptr : ptr_width} s r : parse_plural_rule s = Ok r <->
  (no_condition s /\ r = mkRule [] None) \/ g_rule true r s \/
  (ru_samples r = None /\ g_open_condition (ru_condition r) s).
Proof. exact (parse_rule_exact s r). Qed.
Print Assumptions C37_accepts_exactly_partial.
Example C37_case_open : exists c, g_open_condition c (bs "n = 1 or i not in ") /\
  parse_plural_rule (bs "n = 1 or i not in ") = Ok (mkRule c None) /\
  parse_plural_rule (bs "n = or i = 1") = Err "Left string: or i = 1".
Proof.
  exists [[mkRel (mkExpr ON None) OpEQ [RValue 1]]; [mkRel (mkExpr OI None) OpNotIn []]].
  split; [|split; vm_compute; reflexivity].
  apply (last_cons _ _ _ _ (bs "n = 1") (bs " or ") _ (bs "i not in ")).
  - apply sep_one. apply (gr true _ (bs "n") (bs " ") _ (bs "=") (bs " ") _ (bs "1")); try discriminate.
    + apply (ge_plain ON).
    + repeat constructor.
    + apply go_eq.
    + repeat constructor.
    + left. apply sep_one, gi_value. now apply value_by.
  - exact (word_one (bs "or")).
  - apply last_one, last_one. apply (gr false _ (bs "i") (bs " ") _ (bs "not in") (bs " ") _ []); try discriminate.
    + apply (ge_plain OI).
    + repeat constructor.
    + apply (go_notin (bs " ")). split; [repeat constructor|discriminate].
    + repeat constructor.
    + right. auto.
Qed.
Example C37_case : exists r, parse_plural_rule (bs "i = 0,1 and v != 0 or f % 10 = 3..4 @integer 0~2, 11 @decimal 0.3, …") = Ok r /\
  List.length (ru_condition r) = 2%nat /\ lists_nonempty (ru_condition r) /\
  parse_plural_rule (bs "i = 0,1 and v != 0 or f % 10 = 3..4 or") = Err "Left string:  or".
Proof.
  eexists. split; [vm_compute; reflexivity|]. split; [reflexivity|]. split; [repeat constructor; discriminate|].
  vm_compute. reflexivity.
Qed.

(** C38 *)
Theorem C38_parsers_agree {ptr : ptr_width} s r : parse_plural_rule s = Ok r -> parse_plural_condition s = Ok (ru_condition r).
Proof. exact (rule_condition s r). Qed.
Print Assumptions C38_parsers_agree.
Example C38_case : exists r, parse_plural_rule (bs "i = 1 and v = 0 @integer 1") = Ok r /\
  List.length (ru_condition r) = 1%nat /\ ru_samples r <> None.
Proof. eexists. split; [vm_compute; reflexivity|]. split; [reflexivity|discriminate]. Qed.

(** C39: false, what follows the condition is ignored *)
Theorem C39_rejects_malformed_refuted :
  exists s c, parse_plural_condition s = Ok c /\ c <> [] /\
    ~ exists t u sa, s = t ++ u /\ g_condition false c t /\ g_samples sa u.
Proof.
  exists (bs "n = 1 garbage"), [[mkRel (mkExpr ON None) OpEQ [RValue 1]]].
  split; [vm_compute; reflexivity|]. split; [discriminate|]. intros (t & u & sa & E & G & S).
  assert (K : parse_plural_rule (bs "n = 1 garbage") = Ok (mkRule [[mkRel (mkExpr ON None) OpEQ [RValue 1]]] sa)).
  { rewrite E. apply rule_exact; [discriminate|repeat constructor; discriminate|]. constructor; [|exact S].
    apply strict_condition; [exact G|repeat constructor; discriminate]. }
  revert K. vm_compute. discriminate.
Qed.
Print Assumptions C39_rejects_malformed_refuted.
(** What holds: some beginning of the input is a well-formed condition denoting the result. *)
Theorem C39_rejects_malformed_partial {ptr : ptr_width} s c : parse_plural_condition s = Ok c -> c <> [] ->
  exists t rest, s = t ++ rest /\ g_condition false c t /\ (lists_nonempty c -> g_condition true c t).
Proof. exact (condition_prefix s c). Qed.
Print Assumptions C39_rejects_malformed_partial.
(** Exactly: the longest beginning of the input that is a condition and does not end
    within a number is read, its last relation possibly without values. *)
Theorem C39_longest_partial {ptr : ptr_width} s c : parse_plural_condition s = Ok c <->
  (no_condition s /\ c = []) \/ exists t rest, longest_condition s c t rest.
Proof. exact (parse_condition_exact s c). Qed.
Print Assumptions C39_longest_partial.
Theorem C39_accepts_exactly_partial {ptr : ptr_width} s : (exists c, parse_plural_condition s = Ok c) <->
  no_condition s \/ exists c t rest, s = t ++ rest /\ whole t rest /\ g_open_condition c t.
Proof. exact (parse_condition_accepts s). Qed.
Print Assumptions C39_accepts_exactly_partial.
Example C39_case_longest : exists t rest,
  longest_condition (bs "n = 1 and i = 99999999999999999999") [[mkRel (mkExpr ON None) OpEQ [RValue 1]; mkRel (mkExpr OI None) OpEQ []]] t rest.
Proof.
  assert (P : parse_plural_condition (bs "n = 1 and i = 99999999999999999999") =
              Ok [[mkRel (mkExpr ON None) OpEQ [RValue 1]; mkRel (mkExpr OI None) OpEQ []]]) by (vm_compute; reflexivity).
  apply C39_longest_partial in P as [[_ P]|P]; [discriminate|exact P].
Qed.
Example C39_case : parse_plural_condition (bs "n = 1 or n within 3..5 oops") =
    Ok [[mkRel (mkExpr ON None) OpEQ [RValue 1]]; [mkRel (mkExpr ON None) OpWithin [RRange (mkRange 3 5)]]] /\
  parse_plural_condition (bs "x = 1") = Err "Parser failed".
Proof. split; vm_compute; reflexivity. Qed.

(** C40: the last clause is false of parse_plural_condition *)
Theorem C40_no_truncation_refuted :
  exists s c, parse_plural_condition s = Ok c /\ ~ no_condition s /\ ~ numbers_fit s /\
    c = [[mkRel (mkExpr ON None) OpEQ [RValue 1]]].
Proof.
  exists (bs "n = 1..99999999999999999999"), [[mkRel (mkExpr ON None) OpEQ [RValue 1]]].
  split; [vm_compute; reflexivity|]. split.
  { rewrite no_condition_condition. vm_compute. discriminate. }
  split; [|reflexivity]. intros H. specialize (H (bs "n = 1..") (bs "99999999999999999999") [] eq_refl).
  revert H. change (~ (digits (bs "99999999999999999999") -> dval (bs "99999999999999999999") < 2 ^ 64)).
  intros H. assert (D : digits (bs "99999999999999999999")) by (repeat constructor; discriminate).
  apply H in D. revert D. vm_compute. discriminate.
Qed.
Print Assumptions C40_no_truncation_refuted.
(** What holds: all numbers fit and no or/and list is empty, for both parsers; and
    parse_plural_rule refuses any input in which some digit run overflows. *)
Theorem C40_well_formed_partial {ptr : ptr_width} s :
  (forall r, parse_plural_rule s = Ok r ->
     condition_fits (ru_condition r) /\ Forall (fun a => a <> []) (ru_condition r) /\
     match ru_samples r with Some x => samples_fit x | None => True end /\
     (~ no_condition s -> numbers_fit s)) /\
  (forall c, parse_plural_condition s = Ok c -> condition_fits c /\ Forall (fun a => a <> []) c).
Proof.
  split.
  - intros r H. destruct (rule_fits s r H) as (A & B & C). repeat split; auto. now apply numbers_fit_rule with r.
  - exact (condition_fits_parsed s).
Qed.
Print Assumptions C40_well_formed_partial.
Example C40_case : exists r, parse_plural_rule (bs "n = 18446744073709551615 @integer 3") = Ok r /\
  ru_condition r = [[mkRel (mkExpr ON None) OpEQ [RValue 18446744073709551615]]] /\
  parse_plural_rule (bs "n = 18446744073709551616") = Err "Left string: 18446744073709551616".
Proof. eexists. split; [vm_compute; reflexivity|]. split; [reflexivity|]. vm_compute. reflexivity. Qed.

(** C41 *)
Theorem C41_empty_condition {ptr : ptr_width} s :
  (parse_plural_condition s = Ok [] <-> no_condition s) /\
  (forall r, parse_plural_rule s = Ok r -> (ru_condition r = [] <-> no_condition s)) /\
  (no_condition s -> exists r, parse_plural_rule s = Ok r).
Proof.
  split; [exact (iff_sym (no_condition_condition s))|]. split; [exact (empty_rule s)|].
  intros N. exists (mkRule [] None). now apply no_condition_rule.
Qed.
Print Assumptions C41_empty_condition.
Example C41_case : no_condition ([194; 160] ++ bs " @integer 0, 2~16, …") /\ ~ no_condition (bs " n = 1").
Proof.
  split.
  - right. exists [194; 160; 32], (bs "integer 0, 2~16, …"). split; [|reflexivity].
    apply (white_cons [194; 160]); [unfold white_char; cbn; tauto|].
    apply (white_cons [32]); [unfold white_char; cbn; tauto|constructor].
  - rewrite no_condition_condition. vm_compute. discriminate.
Qed.

(** C42: false, and it fails for every sample-only rule *)
Theorem C42_samples_reported_refuted :
  exists s sa, g_samples (Some sa) s /\ parse_plural_rule s = Ok (mkRule [] None).
Proof.
  exists (bs " @integer 7"), (mkSamples (Some (mkSL [mkSR (mkDec 7 None) None] false)) None). split.
  - apply (gsa (Some (mkSL [mkSR (mkDec 7 None) None] false)) (bs " @integer 7") None []); [|constructor].
    apply (gp_some _ (bs " @integer ") _ (bs "7")).
    + exists (bs " "), (bs " "). repeat split; try discriminate; repeat constructor.
    + repeat constructor; discriminate.
  - vm_compute. reflexivity.
Qed.
Print Assumptions C42_samples_reported_refuted.
(** What holds: such a rule is accepted, with an empty condition; its samples are always dropped. *)
Theorem C42_samples_dropped_partial {ptr : ptr_width} s sa : g_samples sa s -> parse_plural_rule s = Ok (mkRule [] None).
Proof. intros G. apply no_condition_rule. exact (samples_no_condition sa s G). Qed.
Print Assumptions C42_samples_dropped_partial.
Example C42_case : exists sa, g_samples (Some sa) (bs " @decimal 0.5").
Proof.
  eexists. apply (gsa None [] (Some (mkSL [mkSR (mkDec 0 (Some 5)) None] false)) (bs " @decimal 0.5")); [constructor|].
  apply (gp_some _ (bs " @decimal ") _ (bs "0.5")); [exact (word_one (bs "@decimal"))|].
  do 3 constructor. apply (gd_frac 0 (bs "0") 5 (bs "5")); now apply value_by.
Qed.

(** C43: false; "1.05" and "1.5" *)
Theorem C43_samples_faithful_refuted :
  exists i f j g, sample_numeral i f /\ sample_numeral j g /\ (i, f) <> (j, g) /\
    parse_plural_rule (sample_rule i f) = parse_plural_rule (sample_rule j g).
Proof.
  exists (bs "1"), (bs "05"), (bs "1"), (bs "5"). repeat split; try discriminate; repeat constructor; try discriminate.
Qed.
Print Assumptions C43_samples_faithful_refuted.
(** What holds: two numerals get the same tree exactly when their digits before
    the point, and their digits after it, denote the same natural numbers; so
    numerals without leading zeros on either side of the point are told apart. *)
Theorem C43_samples_faithful_partial {ptr : ptr_width} i f j g : sample_numeral i f -> sample_numeral j g ->
  (parse_plural_rule (sample_rule i f) = parse_plural_rule (sample_rule j g) <-> dval i = dval j /\ dval f = dval g) /\
  (no_leading_zero i -> no_leading_zero f -> no_leading_zero j -> no_leading_zero g ->
   parse_plural_rule (sample_rule i f) = parse_plural_rule (sample_rule j g) -> i = j /\ f = g).
Proof. intros A B. split; [exact (faithful_samples i f j g A B)|exact (canonical_samples i f j g A B)]. Qed.
Print Assumptions C43_samples_faithful_partial.
Example C43_case : sample_numeral (bs "10") (bs "50") /\ no_leading_zero (bs "10") /\ no_leading_zero (bs "50") /\
  sample_rule (bs "10") (bs "50") = bs "n = 1 @decimal 10.50".
Proof. repeat split; try discriminate; repeat constructor; try discriminate; now right. Qed.

(** C44 *)
Theorem C44_no_panic {ptr : ptr_width} s :
  (forall why, parse_plural_rule s <> Panic why) /\ (forall why, parse_plural_condition s <> Panic why).
Proof. exact (no_panic s). Qed.
Print Assumptions C44_no_panic.
Example C44_case : parse_plural_rule (bs "n % = 1") = Err "Parser failed" /\ parse_plural_rule (bs "n = 1,, 2") = Err "Left string: ,, 2".
Proof. split; vm_compute; reflexivity. Qed.
