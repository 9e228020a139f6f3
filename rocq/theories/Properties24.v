(** * Property C109: the same value as f32 and as f64 or integer *)
From Coq Require Import Reals Lra Floats.SpecFloat.
From Flocq Require Import Core IEEE754.BinarySingleNaN.
From Verif Require Import Base F64 Operands LangId GenRs PluralRules Tables SpecR Spec F64Facts ParserProps Conformance F32Same.
Open Scope N_scope.

(** C109 is false: 2^30 as an f32 is 1073741800 to [select]. In Russian the
    f32 is "many", the f64 and the integer of the same value are "few". *)
Definition two30_f32 : spec_float := S754_finite false 8388608 7.
Definition two30_f64 : spec_float := S754_finite false 4503599627370496 (-22).
Theorem C109_same_value_refuted :
  exists x y k pr, valid32 x /\ valid64 y /\ SF2R radix2 x = SF2R radix2 y /\ SF2R radix2 x = IZR (Z.of_N k) /\
    create Halving (lang "ru") CARDINAL = Ok pr /\
    select W64 pr (InF32 x) = Ok MANY /\ select W64 pr (InF64 y) = Ok FEW /\ select W64 pr (InUnsigned k) = Ok FEW.
Proof.
  destruct (create Halving (lang "ru") CARDINAL) as [pr| |] eqn:C; [|vm_compute in C; discriminate|vm_compute in C; discriminate].
  exists two30_f32, two30_f64, 1073741824, pr. split; [vm_compute; reflexivity|]. split; [vm_compute; reflexivity|].
  split; [unfold SF2R, F2R; cbn; lra|].
  split; [unfold SF2R, F2R; cbn; lra|]. split; [reflexivity|].
  vm_compute in C. injection C as <-. split; [vm_compute; reflexivity|]. split; vm_compute; reflexivity.
Qed.
Print Assumptions C109_same_value_refuted.
(** the operands agree exactly when the f32's operand n is the f64 of the same value *)
Theorem C109_exactly x y : valid32 x -> valid64 y -> is_finite_SF x = true -> is_finite_SF y = true ->
  SF2R radix2 y = SF2R radix2 x ->
  (operands_from_f32 x = operands_from_f64 y <-> exists po, operands_from_f32 x = Ok po /\ op_n po = SFabs y).
Proof. exact (C109_lemma x y). Qed.
Print Assumptions C109_exactly.
(** every integral f32 below 2^25 + 16 gives what the integer gives *)
Theorem C109_small_partial w pr x k : valid32 x -> is_finite_SF x = true ->
  SF2R radix2 (SFabs x) = IZR (Z.of_N k) -> k < 33554448 ->
  operands_from_f32 x = Ok (operands_from_unsigned k) /\ select w pr (InF32 x) = select w pr (InUnsigned k).
Proof. intros V F R L. split; [exact (C109_small_lemma x k V F R L)|exact (C109_small_select w pr x k V F R L)]. Qed.
Print Assumptions C109_small_partial.
(** and 2^25 + 16 does not: it is 33554450 to [select], which is "many" in Hebrew, while the integer is "other" *)
Definition bound_f32 : spec_float := S754_finite false 8388612 2.
Theorem C109_bound_sharp :
  exists pr, create Halving (lang "he") CARDINAL = Ok pr /\ valid32 bound_f32 /\ SF2R radix2 bound_f32 = IZR (Z.of_N 33554448) /\
    operands_from_f32 bound_f32 = Ok (operands_from_unsigned 33554450) /\
    select W64 pr (InF32 bound_f32) = Ok MANY /\ select W64 pr (InUnsigned 33554448) = Ok OTHER.
Proof.
  destruct (create Halving (lang "he") CARDINAL) as [pr| |] eqn:C; [|vm_compute in C; discriminate|vm_compute in C; discriminate].
  exists pr. split; [reflexivity|]. split; [vm_compute; reflexivity|]. split; [unfold SF2R, F2R; cbn; lra|].
  split; [vm_compute; reflexivity|]. vm_compute in C. injection C as <-. split; vm_compute; reflexivity.
Qed.
Print Assumptions C109_bound_sharp.
(** 0.5 and 33554444 agree, 0.1 does not: as an f32 it has one fraction digit, as the f64 of the same value seventeen *)
Definition half_f32 : spec_float := S754_finite false 8388608 (-24).
Definition half_f64 : spec_float := S754_finite false 4503599627370496 (-53).
Definition tenth_f32 : spec_float := S754_finite false 13421773 (-27).
Definition tenth_f64 : spec_float := S754_finite false 7205759511166976 (-56).
Definition last_f32 : spec_float := S754_finite true 8388611 2.
Example C109_case :
  valid32 half_f32 /\ valid64 half_f64 /\ SF2R radix2 half_f64 = SF2R radix2 half_f32 /\ operands_from_f32 half_f32 = operands_from_f64 half_f64 /\
  valid32 tenth_f32 /\ valid64 tenth_f64 /\ SF2R radix2 tenth_f64 = SF2R radix2 tenth_f32 /\
  (exists po, operands_from_f32 tenth_f32 = Ok po /\ op_v po = 1 /\ op_n po <> tenth_f64) /\
  (exists po, operands_from_f64 tenth_f64 = Ok po /\ op_v po = 17 /\ op_n po = tenth_f64) /\
  valid32 last_f32 /\ SF2R radix2 (SFabs last_f32) = IZR (Z.of_N 33554444) /\ operands_from_f32 last_f32 = Ok (operands_from_unsigned 33554444).
Proof.
  do 2 (split; [vm_compute; reflexivity|]). split; [unfold SF2R, F2R; cbn; lra|].
  do 3 (split; [vm_compute; reflexivity|]). split; [unfold SF2R, F2R; cbn; lra|].
  split; [eexists; split; [vm_compute; reflexivity|split; [vm_compute; reflexivity|intro H; vm_compute in H; discriminate H]]|].
  split; [eexists; split; [vm_compute; reflexivity|split; vm_compute; reflexivity]|].
  split; [vm_compute; reflexivity|]. split; [unfold SF2R, F2R; cbn; lra|]. vm_compute. reflexivity.
Qed.
