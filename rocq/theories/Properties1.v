(** * Properties C01-C20 and C60: conversion of numbers to plural operands

    Each theorem is followed by a concrete case meeting its hypotheses. *)
From Coq Require Import Reals Floats.SpecFloat.
From Flocq Require Import Core IEEE754.BinarySingleNaN.
From Verif Require Import Base Utf8 F64 SpecR Shortest Operands Ast Spec DigitFacts OperandsFacts OperandsProps FloatProps F64Facts.
Open Scope N_scope.

(** C01 *)
Theorem C01_fraction_operands sg i f :
  minus_opt sg -> digits i -> digits f -> i <> [] -> f <> [] ->
  dval i < 2 ^ 64 -> dval f < 2 ^ 64 ->
  exists n g, without_trailing_zeros f g /\
    operands_from_str (sg ++ i ++ [46] ++ f) =
    Ok (mkOps n (dval i) (N.of_nat (List.length f)) (N.of_nat (List.length g)) (dval f) (dval g)).
Proof. exact (C01_lemma sg i f). Qed.
Print Assumptions C01_fraction_operands.
Ltac solve_digits := repeat constructor; unfold digit_char; easy.
Example C01_case : operands_from_str (bs "-1234.5670")
  = Ok (mkOps (dec_to_float 53 1024 false 12345670 (-4)) 1234 4 3 5670 567)
  /\ bs "-1234.5670" = bs "-" ++ bs "1234" ++ [46] ++ bs "5670"
  /\ digits (bs "1234") /\ digits (bs "5670") /\ dval (bs "1234") = 1234.
Proof. split; [vm_compute; reflexivity|]. split; [reflexivity|]. split; [solve_digits|]. split; [solve_digits|reflexivity]. Qed.

(** C02 *)
Theorem C02_n_nearest_integer sg i po :
  minus_opt sg -> digits i -> i <> [] ->
  operands_from_str (sg ++ i) = Ok po -> nearest64 (exact_value (dval i) 0) (op_n po).
Proof. exact (C02_int_lemma sg i po). Qed.
Print Assumptions C02_n_nearest_integer.
Example C02_integer_case : exists po, operands_from_str (bs "-" ++ bs "9007199254740993") = Ok po /\
  digits (bs "9007199254740993") /\ op_n po = f64_of_N 9007199254740992.
Proof. eexists. split; [vm_compute; reflexivity|]. split; [solve_digits|]. vm_compute. reflexivity. Qed.
Theorem C02_n_nearest_fraction sg i f po :
  minus_opt sg -> digits i -> digits f -> i <> [] -> f <> [] ->
  operands_from_str (sg ++ i ++ [46] ++ f) = Ok po ->
  nearest64 (exact_value (dval (i ++ f)) (List.length f)) (op_n po).
Proof. exact (C02_frac_lemma sg i f po). Qed.
Print Assumptions C02_n_nearest_fraction.
Example C02_case : exists po, operands_from_str (bs "-0.1") = Ok po /\
  op_n po = S754_finite false 7205759403792794 (-56).
Proof. eexists. split; vm_compute; reflexivity. Qed.

(** C03 (the part about [select] is [C03_select_minus] in Properties2.v) *)
Theorem C03_minus_ignored s :
  utf8_text s -> (forall r, s <> 45 :: r) ->
  operands_from_str (45 :: s) = operands_from_str s.
Proof. rewrite <- utf8_iff. exact (C03_lemma s). Qed.
Print Assumptions C03_minus_ignored.
Example C03_case : utf8_text (bs "12.50") /\ (forall r, bs "12.50" <> 45 :: r) /\
  exists po, operands_from_str (bs "-12.50") = Ok po /\ op_i po = 12.
Proof. split; [now apply utf8_iff|]. split; [easy|]. eexists. split; vm_compute; reflexivity. Qed.

(** C04: the full statement [forall s po, operands_from_str s = Ok po ->
    not_negative (op_n po)] is false of the code ("--5"); true whenever the
    string does not start with two minus signs, and false whenever it does
    (unless n is NaN). *)
Theorem C04_n_not_negative_refuted :
  exists s po, operands_from_str s = Ok po /\ SFltb (op_n po) (S754_zero false) = true /\ op_i po = 0.
Proof. exists (bs "--5"). eexists. split; [vm_compute; reflexivity|split; vm_compute; reflexivity]. Qed.
Print Assumptions C04_n_not_negative_refuted.
Theorem C04_n_not_negative_partial s po :
  operands_from_str s = Ok po -> (forall r, s <> 45 :: 45 :: r) -> not_negative (op_n po).
Proof. exact (C04_lemma s po). Qed.
Print Assumptions C04_n_not_negative_partial.
Theorem C04_double_minus r po :
  operands_from_str (45 :: 45 :: r) = Ok po -> op_n po = S754_nan \/ sign_SF (op_n po) = true.
Proof. exact (C04_converse r po). Qed.
Print Assumptions C04_double_minus.
Example C04_double_case : (exists po, operands_from_str (bs "--inf") = Ok po /\ sign_SF (op_n po) = true) /\
  exists po, operands_from_str (bs "--NaN") = Ok po /\ op_n po = S754_nan.
Proof. split; eexists; split; vm_compute; reflexivity. Qed.
Example C04_case : exists po, operands_from_str (bs "-5") = Ok po /\ (forall r, bs "-5" <> 45 :: 45 :: r) /\
  SFeqb (op_n po) (f64_of_N 5) = true.
Proof. eexists. split; [vm_compute; reflexivity|]. split; [easy|]. vm_compute. reflexivity. Qed.

(** C05 *)
Theorem C05_accepted_strings s : utf8_text s ->
  (accepted s -> exists po, operands_from_str s = Ok po) /\
  (~ accepted s -> exists e, operands_from_str s = Err e).
Proof. rewrite <- utf8_iff. exact (C05_lemma s). Qed.
Print Assumptions C05_accepted_strings.
Theorem C05_accepted_iff s : (exists po, operands_from_str s = Ok po) <-> accepted s.
Proof. exact (accepted_iff s). Qed.
Print Assumptions C05_accepted_iff.
Example C05_case_yes : accepted (bs "-+1.50") /\ accepted (bs "1e3") /\ accepted (bs "-Infinity").
Proof.
  repeat split; apply accepted_iff; eexists; vm_compute; reflexivity.
Qed.
Example C05_case_no : ~ accepted (bs "1.") /\ ~ accepted (bs ".5") /\ ~ accepted (bs "1.5e3") /\ ~ accepted (bs "").
Proof.
  repeat split; intros H; apply accepted_iff in H; destruct H as [po H]; vm_compute in H; discriminate H.
Qed.

(** C06: the full statement (i = V for every V < 2^64) is false above 2^53;
    exact formula in [C06_integer_string_formula]. *)
Theorem C06_integer_string_refuted :
  exists i po, digits i /\ i <> [] /\ dval i < 2 ^ 64 /\ operands_from_str i = Ok po /\ op_i po <> dval i.
Proof.
  exists (bs "9007199254740993"). eexists. split; [solve_digits|]. split; [easy|]. split; [reflexivity|].
  split; [vm_compute; reflexivity|]. vm_compute. discriminate.
Qed.
Print Assumptions C06_integer_string_refuted.
Theorem C06_integer_string_partial sg i :
  minus_opt sg -> digits i -> i <> [] -> dval i <= 2 ^ 53 ->
  exists n, operands_from_str (sg ++ i) = Ok (mkOps n (dval i) 0 0 0 0).
Proof. exact (C06_lemma sg i). Qed.
Print Assumptions C06_integer_string_partial.
Theorem C06_integer_string_formula sg i :
  minus_opt sg -> digits i -> i <> [] ->
  exists n k, operands_from_str (sg ++ i) = Ok (mkOps n k 0 0 0 0) /\
    Z.of_N k = Z.min (Zfloor (round radix2 (FLT_exp (-1074) 53) ZnearestE (IZR (Z.of_N (dval i))))) (2 ^ 64 - 1).
Proof. exact (C06_formula sg i). Qed.
Print Assumptions C06_integer_string_formula.
Example C06_formula_case : exists n, digits (bs "9007199254740995") /\
  operands_from_str (bs "-" ++ bs "9007199254740995") = Ok (mkOps n 9007199254740996 0 0 0 0).
Proof. eexists. split; [solve_digits|]. vm_compute. reflexivity. Qed.
Example C06_cap_case : exists n, digits (bs "123456789012345678901234567890") /\
  operands_from_str (bs "123456789012345678901234567890") = Ok (mkOps n 18446744073709551615 0 0 0 0).
Proof. eexists. split; [solve_digits|]. vm_compute. reflexivity. Qed.
Example C06_case : exists n, operands_from_str (bs "-" ++ bs "9007199254740992") = Ok (mkOps n 9007199254740992 0 0 0 0).
Proof. apply (C06_lemma (bs "-") (bs "9007199254740992")); [now right|solve_digits|easy|easy]. Qed.

(** C07 *)
Theorem C07_operands_consistent s po : operands_from_str s = Ok po ->
  op_w po <= op_v po /\ op_f po = op_t po * 10 ^ (op_v po - op_w po) /\
  op_f po < 10 ^ op_v po /\ op_t po < 10 ^ op_w po /\
  (op_w po = 0 <-> op_t po = 0) /\ (op_t po <> 0 -> op_t po mod 10 <> 0).
Proof. exact (C07_lemma s po). Qed.
Print Assumptions C07_operands_consistent.
Example C07_case : exists po, operands_from_str (bs "3.0500") = Ok po /\
  op_v po = 4 /\ op_w po = 2 /\ op_f po = 500 /\ op_t po = 5.
Proof. eexists. split; [vm_compute; reflexivity|repeat split]. Qed.

(** C08 *)
Theorem C08_append_zero s po : operands_from_str s = Ok po -> In 46 s ->
  operands_from_str (s ++ [48]) =
  if op_f po * 10 <? 2 ^ 64
  then Ok (mkOps (op_n po) (op_i po) (op_v po + 1) (op_w po) (op_f po * 10) (op_t po))
  else Err "Could not convert string to integer!".
Proof. exact (C08_lemma s po). Qed.
Print Assumptions C08_append_zero.
Example C08_case_ok : exists po, operands_from_str (bs "1.5") = Ok po /\ In 46 (bs "1.5") /\ op_f po * 10 < 2 ^ 64.
Proof. eexists. split; [vm_compute; reflexivity|split; [cbn; auto|reflexivity]]. Qed.
Example C08_case_err : exists po, operands_from_str (bs "0.9999999999999999999") = Ok po /\
  In 46 (bs "0.9999999999999999999") /\ 2 ^ 64 <= op_f po * 10.
Proof. eexists. split; [vm_compute; reflexivity|split; [cbn; auto|easy]]. Qed.

(** C09 *)
Theorem C09_leading_zero_integer i : digits i -> i <> [] ->
  operands_from_str (48 :: i) = operands_from_str i.
Proof. exact (C09_int_lemma i). Qed.
Print Assumptions C09_leading_zero_integer.
Example C09_integer_case : digits (bs "07") /\ operands_from_str (bs "007") = operands_from_str (bs "07") /\
  exists po, operands_from_str (bs "007") = Ok po /\ op_i po = 7.
Proof. split; [solve_digits|]. split; [vm_compute; reflexivity|]. eexists. split; vm_compute; reflexivity. Qed.
Theorem C09_leading_zero_fraction i f : digits i -> i <> [] -> digits f ->
  operands_from_str (48 :: i ++ [46] ++ f) = operands_from_str (i ++ [46] ++ f).
Proof. exact (C09_frac_lemma i f). Qed.
Print Assumptions C09_leading_zero_fraction.
Example C09_case : digits (bs "1") /\ digits (bs "50") /\
  operands_from_str (bs "01.50") = operands_from_str (bs "1.50") /\
  exists po, operands_from_str (bs "01.50") = Ok po.
Proof. split; [solve_digits|]. split; [solve_digits|]. split; [|eexists]; vm_compute; reflexivity. Qed.

(** C10 *)
Theorem C10_no_panic s w : utf8_text s -> operands_from_str s <> Panic w.
Proof. rewrite <- utf8_iff. exact (from_str_no_panic s w). Qed.
Print Assumptions C10_no_panic.
Example C10_case : utf8_text (45 :: 226 :: 130 :: 172 :: bs "1.5") /\
  operands_from_str (45 :: 226 :: 130 :: 172 :: bs "1.5") = Err "Incorrect number passed!".
Proof. split; [apply utf8_iff|]; vm_compute; reflexivity. Qed.

(** C11: the five unsigned types differ only in which [x] they contain *)
Theorem C11_unsigned x : x < 2 ^ 64 ->
  nearest64 (IZR (Z.of_N x)) (op_n (operands_from_unsigned x)) /\
  op_i (operands_from_unsigned x) = x /\ op_v (operands_from_unsigned x) = 0 /\
  op_w (operands_from_unsigned x) = 0 /\ op_f (operands_from_unsigned x) = 0 /\
  op_t (operands_from_unsigned x) = 0.
Proof. exact (C11_lemma x). Qed.
Print Assumptions C11_unsigned.
Example C11_case : 18446744073709551615 < 2 ^ 64 /\ op_i (operands_from_unsigned 18446744073709551615) = 18446744073709551615.
Proof. split; reflexivity. Qed.

(** C12 *)
Theorem C12_signed z : (- 2 ^ 63 <= z < 2 ^ 63)%Z ->
  (z = (- 2 ^ 63)%Z /\ operands_from_signed W64 z = Err "Number too big") \/
  (z <> (- 2 ^ 63)%Z /\ exists n, operands_from_signed W64 z = Ok (mkOps n (Z.to_N (Z.abs z)) 0 0 0 0) /\
     nearest64 (IZR (Z.abs z)) n).
Proof. exact (C12_lemma z). Qed.
Print Assumptions C12_signed.
Example C12_case : (- 2 ^ 63 <= -128 < 2 ^ 63)%Z /\
  exists n, operands_from_signed W64 (-128) = Ok (mkOps n 128 0 0 0 0).
Proof. split; [easy|]. eexists. vm_compute. reflexivity. Qed.

(** C13: the full statement (all i64 values) is false *)
Theorem C13_pointer_width_refuted :
  exists z, (- 2 ^ 63 <= z < 2 ^ 63)%Z /\
    (exists po, operands_from_signed W64 z = Ok po /\ op_i po = 4294967297) /\
    (exists po, operands_from_signed W32 z = Ok po /\ op_i po = 1).
Proof. exists 4294967297%Z. split; [easy|]. split; eexists; (split; [vm_compute; reflexivity|reflexivity]). Qed.
Print Assumptions C13_pointer_width_refuted.
Theorem C13_pointer_width_partial z : (- 2 ^ 31 < z < 2 ^ 31)%Z ->
  operands_from_signed W32 z = operands_from_signed W64 z.
Proof. exact (C13_lemma z). Qed.
Print Assumptions C13_pointer_width_partial.
(** Exactly there; elsewhere on a 32-bit target the value is taken modulo 2^32. *)
Theorem C13_exact_range_partial z : (- 2 ^ 63 <= z < 2 ^ 63)%Z ->
  (operands_from_signed W32 z = operands_from_signed W64 z <-> (- 2 ^ 31 < z < 2 ^ 31)%Z).
Proof. exact (C13_exact_lemma z). Qed.
Print Assumptions C13_exact_range_partial.
Theorem C13_modulo_partial z : exists x, (- 2 ^ 31 <= x < 2 ^ 31)%Z /\ (x mod 2 ^ 32 = z mod 2 ^ 32)%Z /\
  operands_from_signed W32 z =
    if (x =? - 2 ^ 31)%Z then Err "Number too big" else Ok (operands_from_unsigned (Z.to_N (Z.abs x))).
Proof. exact (C13_modulo z). Qed.
Print Assumptions C13_modulo_partial.
Example C13_modulo_case : (4294967295 mod 2 ^ 32 = -1 mod 2 ^ 32)%Z /\
  operands_from_signed W32 4294967295 = Ok (operands_from_unsigned 1) /\
  operands_from_signed W32 2147483648 = Err "Number too big" /\
  operands_from_signed W64 2147483648 = Ok (operands_from_unsigned 2147483648).
Proof. split; [reflexivity|]. split; [vm_compute; reflexivity|]. split; vm_compute; reflexivity. Qed.
Example C13_case : (- 2 ^ 31 < -2147483647 < 2 ^ 31)%Z /\
  exists po, operands_from_signed W32 (-2147483647) = Ok po /\ op_i po = 2147483647.
Proof. split; [easy|]. eexists. split; vm_compute; reflexivity. Qed.

(** C14 (also for the minimum, where both are errors) *)
Theorem C14_negated_integer w z : operands_from_signed w (- z) = operands_from_signed w z.
Proof. exact (C14_lemma w z). Qed.
Print Assumptions C14_negated_integer.
Example C14_case : exists po, operands_from_signed W64 (-7) = Ok po /\ op_i po = 7.
Proof. eexists. split; vm_compute; reflexivity. Qed.

(** C15: any spelling, leading zeros included *)
Theorem C15_integer_spelling z i :
  (Z.abs z <= 2 ^ 53)%Z -> digits i -> i <> [] -> dval i = Z.to_N (Z.abs z) ->
  operands_from_str ((if (z <? 0)%Z then [45] else []) ++ i) = operands_from_signed W64 z.
Proof. exact (C15_lemma z i). Qed.
Print Assumptions C15_integer_spelling.
Theorem C15_unsigned_spelling x i : x <= 2 ^ 53 -> digits i -> i <> [] -> dval i = x ->
  operands_from_str i = Ok (operands_from_unsigned x).
Proof. exact (C15_unsigned x i). Qed.
Print Assumptions C15_unsigned_spelling.
Example C15_unsigned_case : 9007199254740992 <= 2 ^ 53 /\ digits (bs "09007199254740992") /\
  dval (bs "09007199254740992") = 9007199254740992 /\
  operands_from_str (bs "09007199254740992") = Ok (operands_from_unsigned 9007199254740992).
Proof. split; [easy|]. split; [solve_digits|]. split; [reflexivity|]. vm_compute. reflexivity. Qed.
Example C15_case : (Z.abs (-42) <= 2 ^ 53)%Z /\ digits (bs "042") /\ dval (bs "042") = Z.to_N (Z.abs (-42)) /\
  operands_from_str (bs "-042") = operands_from_signed W64 (-42).
Proof. split; [easy|]. split; [solve_digits|]. split; [reflexivity|]. vm_compute. reflexivity. Qed.

(** C16 *)
Theorem C16_finite_f64_converts x : valid64 x -> is_finite_SF x = true ->
  exists po, operands_from_f64 x = Ok po.
Proof. exact (C16_f64 x). Qed.
Print Assumptions C16_finite_f64_converts.
Theorem C16_finite_f32_converts x : valid32 x -> is_finite_SF x = true ->
  exists po, operands_from_f32 x = Ok po.
Proof. exact (C16_f32 x). Qed.
Print Assumptions C16_finite_f32_converts.
Example C16_f32_case : valid32 (S754_finite true 1 (-149)) /\
  exists po, operands_from_f32 (S754_finite true 1 (-149)) = Ok po /\ op_v po = 45 /\ op_f po = 1.
Proof. split; [vm_compute; reflexivity|]. eexists. split; [vm_compute; reflexivity|]. split; reflexivity. Qed.
Example C16_case : valid64 (S754_finite true 4503599627370497 (-52)) /\
  f64_to_string (S754_finite true 4503599627370497 (-52)) = bs "-1.0000000000000002" /\
  valid32 (S754_finite false 13421773 (-27)) /\ f32_to_string (S754_finite false 13421773 (-27)) = bs "0.1".
Proof. split; [vm_compute; reflexivity|]. split; [vm_compute; reflexivity|]. split; vm_compute; reflexivity. Qed.

(** C17 *)
Theorem C17_float_n_exact x po : valid64 x -> is_finite_SF x = true ->
  operands_from_f64 x = Ok po -> op_n po = SFabs x.
Proof. exact (C17_lemma x po). Qed.
Print Assumptions C17_float_n_exact.
Example C17_case : valid64 (S754_finite true 1 (-1074)) /\
  exists po, operands_from_f64 (S754_finite true 1 (-1074)) = Ok po /\ op_v po = 324 /\ op_t po = 5.
Proof. split; [reflexivity|]. eexists. split; [vm_compute; reflexivity|split; vm_compute; reflexivity]. Qed.

(** C18: as stated it also fixes operand i, which is false from 2^53 on:
    [C18_shortest_refuted]; everything else holds for every nonzero finite
    float ([0.0] prints as "0"). *)
Theorem C18_shortest_refuted :
  exists x d E po, valid64 x /\ shortest_decimal d E x /\ operands_from_f64 x = Ok po /\
    op_v po = 0 /\ (0 <= E)%Z /\ op_i po <> d * 10 ^ Z.to_N E.
Proof.
  exists (S754_finite false 4503599627370496 8).
  destruct (shortest_result 53 1024 _ _ ltac:(easy) ltac:(easy) ltac:(easy) 4503599627370496 8 eq_refl)
    as (d & E & H & A & _ & _ & _ & _ & _ & Sh & Cl).
  assert (H2 : shortest 53 1024 4503599627370496 8 = Some (1152921504606847, 3%Z)) by (vm_compute; reflexivity).
  rewrite H2 in H. injection H as <- <-.
  exists 1152921504606847, 3%Z. eexists. split; [reflexivity|]. split.
  { split; [now apply nearest64_dec|]. split; [intros d' E' k K L; apply nearest64_dec in K; eauto|].
    intros d' E' K L. apply nearest64_dec in K. now apply Cl. }
  split; [vm_compute; reflexivity|]. split; [reflexivity|]. split; [discriminate|]. vm_compute. discriminate.
Qed.
Print Assumptions C18_shortest_refuted.
Theorem C18_shortest_partial x :
  valid64 x -> is_finite_SF x = true -> SFabs x <> S754_zero false ->
  exists d E, shortest_decimal d E (SFabs x) /\ d mod 10 <> 0 /\
  let v := Z.to_N (- E) in
  exists n i, operands_from_f64 x = Ok (mkOps n i v v (d mod 10 ^ v) (d mod 10 ^ v)) /\
  (below_2_53 (SFabs x) -> i = d * 10 ^ Z.to_N E / 10 ^ v).
Proof. exact (C18_lemma x). Qed.
Print Assumptions C18_shortest_partial.
Example C18_case : valid64 (S754_finite true 5559917313492231 (-52)) /\
  operands_from_f64 (S754_finite true 5559917313492231 (-52)) =
  Ok (mkOps (S754_finite false 5559917313492231 (-52)) 1 16 16 2345496432902239 2345496432902239).
Proof. split; vm_compute; reflexivity. Qed.

(** C19 *)
Theorem C19_negated_float x : valid64 x -> operands_from_f64 (SFopp x) = operands_from_f64 x.
Proof. exact (C19_lemma x). Qed.
Print Assumptions C19_negated_float.
Theorem C19_negated_f32 x : valid32 x -> operands_from_f32 (SFopp x) = operands_from_f32 x.
Proof. exact (C19_f32 x). Qed.
Print Assumptions C19_negated_f32.
Example C19_f32_case : valid32 (S754_finite true 13421773 (-27)) /\
  exists po, operands_from_f32 (SFopp (S754_finite true 13421773 (-27))) = Ok po /\ op_f po = 1 /\ op_v po = 1.
Proof. split; [vm_compute; reflexivity|]. eexists. split; [vm_compute; reflexivity|]. split; reflexivity. Qed.
Example C19_case : valid64 (S754_finite true 6755399441055744 (-52)) /\
  exists po, operands_from_f64 (SFopp (S754_finite true 6755399441055744 (-52))) = Ok po /\ op_f po = 5.
Proof. split; [vm_compute; reflexivity|]. eexists. split; vm_compute; reflexivity. Qed.

(** C20 *)
Theorem C20_inf_nan :
  (forall s, operands_from_f64 (S754_infinity s) = Ok (mkOps (S754_infinity false) (2 ^ 64 - 1) 0 0 0 0) /\
             operands_from_f32 (S754_infinity s) = Ok (mkOps (S754_infinity false) (2 ^ 64 - 1) 0 0 0 0)) /\
  operands_from_f64 S754_nan = Ok (mkOps S754_nan 0 0 0 0 0) /\
  operands_from_f32 S754_nan = Ok (mkOps S754_nan 0 0 0 0 0).
Proof. exact C20_lemma. Qed.
Print Assumptions C20_inf_nan.
(** the same as the strings Rust prints for these floats *)
Example C20_case : operands_from_str (bs "-inf") = operands_from_f64 (S754_infinity true) /\
  operands_from_str (bs "NaN") = operands_from_f64 S754_nan /\
  operands_from_f64 (S754_infinity true) <> operands_from_f64 S754_nan.
Proof. split; [vm_compute; reflexivity|]. split; [vm_compute; reflexivity|]. vm_compute. discriminate. Qed.

(** C60: integer part of a float: exact for every finite float, capped at 2^64-1 *)
Theorem C60_float_integer_part x : valid64 x -> is_finite_SF x = true ->
  exists po, operands_from_f64 x = Ok po /\
  Z.of_N (op_i po) = Z.min (Zfloor (Rabs (SF2R radix2 x))) (2 ^ 64 - 1).
Proof. exact (C60_lemma x). Qed.
Print Assumptions C60_float_integer_part.
Example C60_case : exists po, operands_from_f64 (S754_finite true 4503599627370496 100) = Ok po /\ op_i po = 18446744073709551615.
Proof. eexists. split; vm_compute; reflexivity. Qed.
