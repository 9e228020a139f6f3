(** * Properties C76-C78: the samples in the CLDR data, equality of operands, failures of the rule parser

    [sample] is in SampleSpec.v: the numbers listed after '@' in a rule text.
    [longest_condition], [longest_samples] and [no_beginning] are in Grammar.v. *)
From Coq Require Import Floats.SpecFloat.
From Verif Require Import Base LangId Json GenRs F64 Operands Ast Spec Cldr PluralRules Tables Represents CldrParser Grammar
  ApiProps Conformance ConformanceProps OperandsEq ParserErrors SampleSpec SampleProps DigitFacts WrongSpec WrongFloat.
Open Scope N_scope.

(** C76 *)
Theorem C76_cldr_consistent t m key rs id name text c d :
  rule_map_of t (cldr_json t) = Some m -> In (key, rs) m -> langid_from_str key = Some id ->
  In (name, text) rs -> named_category name = Some c -> sample text d ->
  exists rules, In (id, rules) (cldr t) /\ cldr_select rules d c.
Proof. exact (C76_cldr t m key rs id name text c d). Qed.
Print Assumptions C76_cldr_consistent.
Theorem C76_samples_refuted t id : In id (integer_wrong t) ->
  exists m key rs name text c d s pr c',
    rule_map_of t (cldr_json t) = Some m /\ In (key, rs) m /\ langid_from_str key = Some id /\
    In (name, text) rs /\ named_category name = Some c /\ sample text d /\ numeral s d /\
    create Halving id t = Ok pr /\ select W64 pr (InStr s) = Ok c' /\ c' <> c.
Proof. exact (C76_wrong t id). Qed.
Print Assumptions C76_samples_refuted.
(** full statement: without the last hypothesis *)
Theorem C76_samples_partial how w t m key rs id name text c d s pr :
  rule_map_of t (cldr_json t) = Some m -> In (key, rs) m -> langid_from_str key = Some id ->
  In (name, text) rs -> named_category name = Some c -> sample text d ->
  numeral s d -> create how id t = Ok pr -> ~ In id (integer_wrong t) -> select w pr (InStr s) = Ok c.
Proof. exact (C76_select how w t m key rs id name text c d s pr). Qed.
Print Assumptions C76_samples_partial.
(** and for every locale, exactly which samples get another category *)
Theorem C76_samples_exactly how w t m key rs id name text c d s pr :
  rule_map_of t (cldr_json t) = Some m -> In (key, rs) m -> langid_from_str key = Some id ->
  In (name, text) rs -> named_category name = Some c -> sample text d ->
  numeral s d -> create how id t = Ok pr ->
  exists c', select w pr (InStr s) = Ok c' /\ (c' = c <-> wrong_number t id d = false).
Proof. exact (C76_exact how w t m key rs id name text c d s pr). Qed.
Print Assumptions C76_samples_exactly.
Example C76_case : exists m rs text pr,
  rule_map_of CARDINAL (cldr_json CARDINAL) = Some m /\ In (bs "ru", rs) m /\ In (bs "pluralRule-count-few", text) rs /\
  text = bs "v = 0 and i % 10 = 2..4 and i % 100 != 12..14 @integer 2~4, 22~24, 32~34, 42~44, 52~54, 62, 102, 1002, …" /\
  sample text (mkDecimal 23 []) /\ create Halving (lang "ru") CARDINAL = Ok pr /\ ~ In (lang "ru") (integer_wrong CARDINAL) /\
  select W64 pr (InStr (bs "23")) = Ok FEW.
Proof.
  destruct (rule_map_of CARDINAL (cldr_json CARDINAL)) as [m|] eqn:M; [|vm_compute in M; discriminate M].
  pose (text := bs "v = 0 and i % 10 = 2..4 and i % 100 != 12..14 @integer 2~4, 22~24, 32~34, 42~44, 52~54, 62, 102, 1002, …").
  assert (X : existsb (fun e => bytes_eqb (fst e) (bs "ru") &&
                existsb (fun r => bytes_eqb (fst r) (bs "pluralRule-count-few") && bytes_eqb (snd r) text) (snd e)) m = true).
  { assert (Y : match rule_map_of CARDINAL (cldr_json CARDINAL) with Some m =>
        existsb (fun e => bytes_eqb (fst e) (bs "ru") &&
                existsb (fun r => bytes_eqb (fst r) (bs "pluralRule-count-few") && bytes_eqb (snd r) text) (snd e)) m | None => false end = true)
      by (vm_compute; reflexivity). now rewrite M in Y. }
  apply existsb_exists in X as ([key l] & I & X). cbn [fst snd] in X. apply andb_prop in X as [K X].
  apply bytes_eqb_eq in K. subst key. apply existsb_exists in X as ([name tx] & J & X). cbn [fst snd] in X.
  apply andb_prop in X as [E1 E2]. apply bytes_eqb_eq in E1, E2. subst name tx.
  destruct (create Halving (lang "ru") CARDINAL) as [pr| |] eqn:C; [|vm_compute in C; discriminate C|vm_compute in C; discriminate C].
  exists m, l, text, pr. repeat split; auto.
  - exists (bs "v = 0 and i % 10 = 2..4 and i % 100 != 12..14 "),
      (bs "integer 2~4, 22~24, 32~34, 42~44, 52~54, 62, 102, 1002, …"), (bs "22~24").
    split; [reflexivity|]. split.
    + exists (bs "integer 2~4, "), (bs ", 32~34, 42~44, 52~54, 62, 102, 1002, …").
      split; [reflexivity|]. split; [repeat (constructor; [unfold separator; intros [?|[?|?]]; discriminate|]); constructor|].
      split; right; [exists (bs "integer 2~4,"), 32|exists 44, (bs " 32~34, 42~44, 52~54, 62, 102, 1002, …")];
        (split; [reflexivity|unfold separator; auto]).
    + right. exists (bs "22"), (bs "24"), (mkDecimal 22 []), (mkDecimal 24 []). split; [reflexivity|].
      split; [exact (read_numeral_sound (bs "22") 22 0 eq_refl)|]. split; [exact (read_numeral_sound (bs "24") 24 0 eq_refl)|].
      split; [reflexivity|]. split; [reflexivity|]. split; [constructor|]. split; vm_compute; discriminate.
  - intros H. apply mem_in in H. vm_compute in H. discriminate H.
  - assert (Y : match create Halving (lang "ru") CARDINAL with Ok pr => select W64 pr (InStr (bs "23")) | _ => Ok OTHER end = Ok FEW)
      by (vm_compute; reflexivity). now rewrite C in Y.
Qed.

(** C77 *)
Theorem C77_equality a b : operands_eqb a b = true <->
  ((op_n a = op_n b /\ op_n a <> S754_nan) \/ (exists s s', op_n a = S754_zero s /\ op_n b = S754_zero s')) /\
  op_i a = op_i b /\ op_v a = op_v b /\ op_w a = op_w b /\ op_f a = op_f b /\ op_t a = op_t b.
Proof. exact (C77_lemma a b). Qed.
Print Assumptions C77_equality.
Theorem C77_partial_equivalence a b c :
  (operands_eqb a a = true <-> op_n a <> S754_nan) /\ operands_eqb a b = operands_eqb b a /\
  (operands_eqb a b = true -> operands_eqb b c = true -> operands_eqb a c = true).
Proof. exact (conj (C77_refl_lemma a) (conj (C77_sym_lemma a b) (C77_trans_lemma a b c))). Qed.
Print Assumptions C77_partial_equivalence.
Theorem C77_same_category w pr a b : operands_eqb a b = true -> select w pr (InOps a) = select w pr (InOps b).
Proof. exact (C77_select_lemma w pr a b). Qed.
Print Assumptions C77_same_category.
Example C77_select_case : exists pr, create Halving (lang "lag") CARDINAL = Ok pr /\
  operands_eqb (mkOps (S754_zero true) 3 1 2 0 4) (mkOps (S754_zero false) 3 1 2 0 4) = true /\
  select W64 pr (InOps (mkOps (S754_zero true) 3 1 2 0 4)) = Ok ZERO /\
  select W64 pr (InOps (mkOps (S754_zero false) 3 1 2 0 4)) = Ok ZERO.
Proof. eexists. split; [vm_compute; reflexivity|]. split; [reflexivity|]. split; vm_compute; reflexivity. Qed.
(** the zeros of both signs are equal, other texts of a number are not; NaN differs from itself *)
Example C77_case :
  let ops := mkOps (S754_zero true) 0 1 0 0 0 in
  operands_from_str (bs "0.0") = Ok (mkOps (S754_zero false) 0 1 0 0 0) /\
  operands_eqb ops (mkOps (S754_zero false) 0 1 0 0 0) = true /\ ops <> mkOps (S754_zero false) 0 1 0 0 0 /\
  operands_eqb ops (operands_from_unsigned 0) = false /\
  exists nan, operands_from_f64 S754_nan = Ok nan /\ operands_eqb nan nan = false.
Proof. vm_compute. repeat split; try discriminate. eexists. split; reflexivity. Qed.

(** C78 *)
Theorem C78_rule_error {ptr : ptr_width} s m : parse_plural_rule s = Err m <->
  (m = "Parser failed"%string /\ ~ no_condition s /\ no_beginning s) \/
  (exists c t u sa v rest, longest_condition s c t u /\ longest_samples u sa v rest /\ rest <> [] /\
     m = ("Left string: " ++ text_of rest)%string).
Proof. exact (rule_error s m). Qed.
Print Assumptions C78_rule_error.
Theorem C78_condition_error {ptr : ptr_width} s m : parse_plural_condition s = Err m <->
  m = "Parser failed"%string /\ ~ no_condition s /\ no_beginning s.
Proof. exact (condition_error s m). Qed.
Print Assumptions C78_condition_error.
Theorem C78_leftover_shown s : Forall (fun c => c < 256) s -> bs (text_of s) = s.
Proof. exact (text_of_bytes s). Qed.
Print Assumptions C78_leftover_shown.
Example C78_shown_case : parse_plural_rule (bs "n = 1 …oops") = Err ("Left string: " ++ text_of (bs " …oops"))%string /\
  bs (text_of (bs " …oops")) = [32; 226; 128; 166] ++ bs "oops".
Proof. split; vm_compute; reflexivity. Qed.
Example C78_case :
  parse_plural_rule (bs "n = 1 or i = 2 and x @integer 1") = Err "Left string:  and x @integer 1" /\
  parse_plural_rule (bs "n = 1 @integer 1, 2.5~ 3, …, 4 @decimal 1.0") = Err "Left string: , 4 @decimal 1.0" /\
  parse_plural_rule (bs "n = 1 @integer 1, 18446744073709551616") = Err "Left string: , 18446744073709551616" /\
  parse_plural_rule (bs "n % 18446744073709551616 = 1") = Err "Parser failed".
Proof. vm_compute. repeat split. Qed.
