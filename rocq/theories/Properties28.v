(** * Property C113: what the conversions remember of a number *)
From Coq Require Import Reals Floats.SpecFloat.
From Flocq Require Import Core IEEE754.BinarySingleNaN.
From Verif Require Import Base F64 Operands Spec SpecR Remember.
Open Scope N_scope.

Ltac solve_digits := repeat constructor; unfold digit_char; easy.

(** C113: the full statement, that different numbers have different operands, is
    false of integer texts from 2^53 on. *)
Theorem C113_numerals_refuted :
  exists s s' d d' po, numeral s d /\ numeral s' d' /\ d <> d' /\ operands_from_str s = Ok po /\ operands_from_str s' = Ok po.
Proof.
  exists (bs "9007199254740992"), (bs "-9007199254740993"), (mkDecimal 9007199254740992 []), (mkDecimal 9007199254740993 []).
  eexists. split; [|split; [|split; [discriminate|split; vm_compute; reflexivity]]].
  - exists [], (bs "9007199254740992"), []. split; [now left|]. split; [solve_digits|]. split; [easy|]. split; [constructor|]. split; reflexivity.
  - exists [45], (bs "9007199254740993"), []. split; [now right|]. split; [solve_digits|]. split; [easy|]. split; [constructor|]. split; reflexivity.
Qed.
Print Assumptions C113_numerals_refuted.
Theorem C113_numerals_exactly s s' d d' po po' : numeral s d -> numeral s' d' ->
  operands_from_str s = Ok po -> operands_from_str s' = Ok po' ->
  (po = po' <-> d = d' \/ (d_frac d = [] /\ d_frac d' = [] /\
     exists y, nearest64 (IZR (Z.of_N (d_int d))) y /\ nearest64 (IZR (Z.of_N (d_int d'))) y)).
Proof. exact (C113_numeral_lemma s s' d d' po po'). Qed.
Print Assumptions C113_numerals_exactly.
Theorem C113_numerals_partial s s' d d' po : numeral s d -> numeral s' d' -> (d_frac d = [] -> d_int d < 2 ^ 53) ->
  operands_from_str s = Ok po -> operands_from_str s' = Ok po -> d = d'.
Proof. exact (C113_small_lemma s s' d d' po). Qed.
Print Assumptions C113_numerals_partial.
Example C113_numerals_case : exists po, numeral (bs "-018446744073709551615.50") (mkDecimal 18446744073709551615 [5; 0]) /\
  numeral (bs "18446744073709551615.50") (mkDecimal 18446744073709551615 [5; 0]) /\
  operands_from_str (bs "-018446744073709551615.50") = Ok po /\ operands_from_str (bs "18446744073709551615.50") = Ok po /\
  operands_from_str (bs "18446744073709551615.5") <> Ok po /\ operands_from_str (bs "18446744073709551614.50") <> Ok po.
Proof.
  eexists. split; [|split; [|split; [vm_compute; reflexivity|split; [vm_compute; reflexivity|split; vm_compute; discriminate]]]].
  - exists [45], (bs "018446744073709551615"), (bs "50"). split; [now right|]. split; [solve_digits|]. split; [easy|]. split; [solve_digits|]. split; reflexivity.
  - exists [], (bs "18446744073709551615"), (bs "50"). split; [now left|]. split; [solve_digits|]. split; [easy|]. split; [solve_digits|]. split; reflexivity.
Qed.

(** texts without a point, whatever their notation *)
Theorem C113_no_point s s' po po' : operands_from_str s = Ok po -> operands_from_str s' = Ok po' ->
  ~ In 46 s -> (po = po' <-> ~ In 46 s' /\ op_n po = op_n po').
Proof. exact (C113_no_point_lemma s s' po po'). Qed.
Print Assumptions C113_no_point.
Example C113_no_point_case : exists po po', operands_from_str (bs "12e2") = Ok po /\ operands_from_str (bs "-+1200") = Ok po /\
  ~ In 46 (bs "12e2") /\ operands_from_str (bs "1200.0") = Ok po' /\ op_n po' = op_n po.
Proof.
  eexists. eexists. split; [vm_compute; reflexivity|]. split; [vm_compute; reflexivity|].
  split; [cbn; intuition discriminate|]. split; vm_compute; reflexivity.
Qed.

Theorem C113_unsigned x x' : operands_from_unsigned x = operands_from_unsigned x' <-> x = x'.
Proof. exact (C113_unsigned_lemma x x'). Qed.
Print Assumptions C113_unsigned.
Theorem C113_signed z z' : (- 2 ^ 63 <= z < 2 ^ 63)%Z -> (- 2 ^ 63 <= z' < 2 ^ 63)%Z ->
  (operands_from_signed W64 z = operands_from_signed W64 z' <-> Z.abs z = Z.abs z').
Proof. exact (C113_signed_lemma z z'). Qed.
Print Assumptions C113_signed.
Theorem C113_signed_32 z z' :
  operands_from_signed W32 z = operands_from_signed W32 z' <-> (z mod 2 ^ 32 = z' mod 2 ^ 32 \/ z mod 2 ^ 32 = - z' mod 2 ^ 32)%Z.
Proof. exact (C113_wrap_lemma z z'). Qed.
Print Assumptions C113_signed_32.
Example C113_integers_case : operands_from_signed W64 (-9223372036854775807) = operands_from_signed W64 9223372036854775807 /\
  operands_from_signed W64 (-9223372036854775807) <> operands_from_signed W64 9223372036854775806 /\
  operands_from_unsigned 18446744073709551615 <> operands_from_unsigned 18446744073709551614 /\
  op_n (operands_from_unsigned 18446744073709551615) = op_n (operands_from_unsigned 18446744073709551614) /\
  operands_from_signed W32 4294967299 = operands_from_signed W32 (-3) /\ operands_from_signed W32 4294967295 = operands_from_signed W32 1 /\
  operands_from_signed W32 4294967295 <> operands_from_signed W32 2.
Proof.
  split; [vm_compute; reflexivity|]. split; [vm_compute; discriminate|]. split; [vm_compute; discriminate|].
  split; [vm_compute; reflexivity|]. split; [vm_compute; reflexivity|]. split; [vm_compute; reflexivity|vm_compute; discriminate].
Qed.

Theorem C113_f64 x x' : valid64 x -> valid64 x' -> (operands_from_f64 x = operands_from_f64 x' <-> SFabs x = SFabs x').
Proof. exact (C113_f64_lemma x x'). Qed.
Print Assumptions C113_f64.
Theorem C113_f32 x x' : valid32 x -> valid32 x' -> (operands_from_f32 x = operands_from_f32 x' <-> SFabs x = SFabs x').
Proof. exact (C113_f32_lemma x x'). Qed.
Print Assumptions C113_f32.
Example C113_floats_case : valid64 (S754_finite false 9007199254740991 11) /\ valid64 (S754_finite true 9007199254740990 11) /\
  operands_from_f64 (S754_finite false 9007199254740991 11) <> operands_from_f64 (S754_finite true 9007199254740990 11) /\
  operands_from_f64 (S754_finite false 9007199254740991 11) = operands_from_f64 (S754_finite true 9007199254740991 11) /\
  valid32 (S754_finite false 16777215 104) /\ valid32 (S754_finite false 16777214 104) /\
  operands_from_f32 (S754_finite false 16777215 104) <> operands_from_f32 (S754_finite false 16777214 104).
Proof.
  split; [vm_compute; reflexivity|]. split; [vm_compute; reflexivity|]. split; [vm_compute; discriminate|].
  split; [vm_compute; reflexivity|]. split; [vm_compute; reflexivity|]. split; [vm_compute; reflexivity|vm_compute; discriminate].
Qed.
