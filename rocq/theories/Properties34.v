(** * Property C119: what [Debug] shows *)
From Coq Require Import Floats.SpecFloat.
From Verif Require Import Base F64 SpecR Operands OperandsEq Ast GenRs Debug DebugProps.
Open Scope N_scope.

(** C119.  The text of [n] reads back as [n], infinities, NaN and -0.0 included; [sci]: Rust 1.58 or later *)
Theorem C119_n sci x : valid64 x -> f64_from_str (debug_f64 sci x) = Some x.
Proof. exact (reads_back_lemma sci x). Qed.
Print Assumptions C119_n.
(** a finite number is never shown as an integer is *)
Theorem C119_n_float sci s m e : valid64 (S754_finite s m e) ->
  exists c, In c (debug_f64 sci (S754_finite s m e)) /\ (c = 46 \/ c = 101).
Proof. exact (shows_float_lemma sci s m e). Qed.
Print Assumptions C119_n_float.
(** before 1.58 it is the text of [Display], or that and ".0" *)
Theorem C119_n_plain x : valid64 x -> debug_f64 false x = f64_to_string x \/ debug_f64 false x = f64_to_string x ++ bs ".0".
Proof. exact (plain_lemma x). Qed.
Print Assumptions C119_n_plain.
(** Operands that are shown alike are the same *)
Theorem C119_operands sci a b : valid64 (op_n a) -> valid64 (op_n b) -> debug_operands sci a = debug_operands sci b -> a = b.
Proof. exact (operands_lemma sci a b). Qed.
Print Assumptions C119_operands.
(** so that a failed [assert_eq] on operands that are shown alike is about NaN *)
Theorem C119_assert sci a b : valid64 (op_n a) -> valid64 (op_n b) -> operands_eqb a b = false -> debug_operands sci a = debug_operands sci b ->
  op_n a = S754_nan /\ op_n b = S754_nan.
Proof. exact (assert_lemma sci a b). Qed.
Print Assumptions C119_assert.
Theorem C119_category a b : debug_category a = debug_category b -> a = b.
Proof. exact (category_lemma a b). Qed.
Print Assumptions C119_category.
(** Syntax trees that are shown alike are the same *)
Theorem C119_rule a b : debug_rule a = debug_rule b -> a = b.
Proof. exact (code_inj _ debug_rule a b code_rule). Qed.
Print Assumptions C119_rule.
Theorem C119_condition a b : debug_condition a = debug_condition b -> a = b.
Proof. exact (code_inj _ debug_condition a b code_condition). Qed.
Print Assumptions C119_condition.
Theorem C119_relation a b : debug_relation a = debug_relation b -> a = b.
Proof. exact (code_inj _ debug_relation a b code_relation). Qed.
Print Assumptions C119_relation.
Theorem C119_samples a b : debug_samples a = debug_samples b -> a = b.
Proof. exact (code_inj _ debug_samples a b code_samples). Qed.
Print Assumptions C119_samples.

Example C119_numbers :
  let d s := option_map (fun x => (debug_f64 true x, debug_f64 false x)) (f64_from_str (bs s)) in
  d "-0"%string = Some (bs "-0.0", bs "-0.0") /\ d "1"%string = Some (bs "1.0", bs "1.0") /\ d "123.450"%string = Some (bs "123.45", bs "123.45") /\
  d "1e16"%string = Some (bs "1e16", bs "10000000000000000.0") /\ d "9999999999999998"%string = Some (bs "9999999999999998.0", bs "9999999999999998.0") /\
  d "0.0001"%string = Some (bs "0.0001", bs "0.0001") /\ d "0.000012"%string = Some (bs "1.2e-5", bs "0.000012") /\
  d "nan"%string = Some (bs "NaN", bs "NaN") /\ d "-inf"%string = Some (bs "-inf", bs "-inf") /\
  d "-1.5e300"%string <> None.
Proof. vm_compute. repeat split; discriminate. Qed.
Example C119_shown :
  match operands_from_str (bs "-12.50") with
  | Ok po => debug_operands true po = bs "PluralOperands { n: 12.5, i: 12, v: 2, w: 1, f: 50, t: 5 }" /\ debug_operands false po = debug_operands true po
  | _ => False
  end.
Proof. vm_compute. split; reflexivity. Qed.
(** a rule of two conditions, and samples *)
Example C119_tree :
  debug_rule (mkRule [[mkRel (mkExpr OI None) OpIs [RValue 1]; mkRel (mkExpr OV (Some 10)) OpIsNot [RRange (mkRange 2 4); RValue 7]]; []] None) =
  bs "Rule { condition: Condition([AndCondition([Relation { expression: Expression { operand: I, modulus: None }, operator: Is, range_list: RangeList([Value(Value(1))]) }, Relation { expression: Expression { operand: V, modulus: Some(Modulo(Value(10))) }, operator: IsNot, range_list: RangeList([Range(Range { lower_val: Value(2), upper_val: Value(4) }), Value(Value(7))]) }]), AndCondition([])]), samples: None }".
Proof. vm_compute. reflexivity. Qed.
Example C119_samples_shown :
  debug_samples (mkSamples (Some (mkSL [mkSR (mkDec 0 None) (Some (mkDec 15 None))] true)) (Some (mkSL [mkSR (mkDec 1 (Some 50)) None] false))) =
  bs "Samples { integer: Some(SampleList { sample_ranges: [SampleRange { lower_val: DecimalValue { integer: Value(0), decimal: None }, upper_val: Some(DecimalValue { integer: Value(15), decimal: None }) }], ellipsis: true }), decimal: Some(SampleList { sample_ranges: [SampleRange { lower_val: DecimalValue { integer: Value(1), decimal: Some(Value(50)) }, upper_val: None }], ellipsis: false }) }".
Proof. vm_compute. reflexivity. Qed.
