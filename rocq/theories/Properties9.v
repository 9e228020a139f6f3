(** * Properties C73-C75: readings of a text, floats and numerals

    [g_rule] is the grammar of rules (Grammar.v); [nearest64], [nearest32],
    [exact_value] and [numeral_text] are in SpecR.v. *)
From Coq Require Import Reals Floats.SpecFloat.
From Flocq Require Import Core IEEE754.BinarySingleNaN.
From Verif Require Import Base F64 SpecR F64Facts Operands Ast Spec CldrParser Grammar PrinterFacts ParserExact
  PluralRules FloatProps FloatAgree.
Open Scope N_scope.

(** C73 *)
Theorem C73_one_reading {ptr : ptr_width} r r' s : g_rule true r s -> g_rule true r' s -> r = r'.
Proof. exact (rule_unique r r' s). Qed.
Print Assumptions C73_one_reading.
Theorem C73_reading_is_parsed {ptr : ptr_width} r s : g_rule true r s -> forall r', parse_plural_rule s = Ok r' <-> r' = r.
Proof. exact (rule_reading r s). Qed.
Print Assumptions C73_reading_is_parsed.
Theorem C73_printing_injective {ptr : ptr_width} r r' : printable r -> printable r' -> print_rule r = print_rule r' -> r = r'.
Proof. exact (print_rule_inj r r'). Qed.
Print Assumptions C73_printing_injective.
Example C73_case :
  let r := mkRule [[mkRel (mkExpr ON (Some 10)) OpNotIn [RRange (mkRange 2 4)]; mkRel (mkExpr OT None) OpIs [RValue 0]];
                   [mkRel (mkExpr OV None) OpEQ [RValue 2]]] None in
  printable r /\ print_rule r = bs "n % 10 not in 2..4 and t is 0 or v = 2".
Proof. split; [|vm_compute; reflexivity]. split; [|reflexivity]. repeat split; repeat constructor; discriminate. Qed.

(** C74 *)
Theorem C74_f64_and_numeral neg i f d k y :
  digits i -> digits f -> i <> [] -> (f <> [] -> without_trailing_zeros f f) ->
  dval (i ++ f) = d * 10 ^ k -> d < 2 ^ 52 -> (List.length f <= 307)%nat ->
  nearest64 (exact_value (dval (i ++ f)) (List.length f)) y ->
  operands_from_f64 (signed_f neg y) = operands_from_str ((if neg then bs "-" else []) ++ numeral_text i f).
Proof. exact (C74_f64_lemma neg i f d k y). Qed.
Print Assumptions C74_f64_and_numeral.
Theorem C74_f32_and_numeral neg i f d k y :
  digits i -> digits f -> i <> [] -> (f <> [] -> without_trailing_zeros f f) ->
  dval (i ++ f) = d * 10 ^ k -> d < 2 ^ 23 -> (List.length f <= 37)%nat -> is_finite_SF y = true ->
  nearest32 (exact_value (dval (i ++ f)) (List.length f)) y ->
  operands_from_f32 (signed_f neg y) = operands_from_str ((if neg then bs "-" else []) ++ numeral_text i f).
Proof. exact (C74_f32_lemma neg i f d k y). Qed.
Print Assumptions C74_f32_and_numeral.
(** 1234.56789 *)
Example C74_case : let y := dec64 123456789 (-5) in
  nearest64 (exact_value (dval (bs "1234" ++ bs "56789")) 5) y /\
  digits (bs "1234") /\ digits (bs "56789") /\ without_trailing_zeros (bs "56789") (bs "56789") /\
  dval (bs "1234" ++ bs "56789") = 123456789 * 10 ^ 0 /\
  operands_from_f64 y = Ok (mkOps y 1234 5 5 56789 56789).
Proof.
  cbv zeta. split; [rewrite exact_dec; apply nearest64_dec; reflexivity|].
  split; [repeat (constructor; [now vm_compute|]); constructor|].
  split; [repeat (constructor; [now vm_compute|]); constructor|].
  split; [split; [exists 0%nat; reflexivity|]|split; [reflexivity|vm_compute; reflexivity]].
  intros g E. change (bs "56789") with ([53; 54; 55; 56] ++ [57]) in E. apply app_inj_tail in E as [_ E]. discriminate E.
Qed.
(** the bound on the digits is needed: this float has a shorter decimal *)
Example C74_bound : exists y, nearest64 (exact_value 100000000000000005 18) y /\
  operands_from_f64 y = Ok (mkOps y 0 1 1 1 1) /\
  operands_from_str (numeral_text (bs "0") (bs "100000000000000005")) = Ok (mkOps y 0 18 18 100000000000000005 100000000000000005).
Proof.
  exists (dec64 100000000000000005 (-18)). split; [rewrite exact_dec; apply nearest64_dec; reflexivity|].
  split; vm_compute; reflexivity.
Qed.

(** C75 *)
Theorem C75_integral_floats neg x y : x < 2 ^ 53 -> nearest64 (IZR (Z.of_N x)) y ->
  operands_from_f64 (signed_f neg y) = Ok (operands_from_unsigned x).
Proof. exact (C75_lemma neg x y). Qed.
Print Assumptions C75_integral_floats.
Theorem C75_select w pr neg x y : x < 2 ^ 53 -> nearest64 (IZR (Z.of_N x)) y ->
  select w pr (InF64 (signed_f neg y)) = select w pr (InUnsigned x).
Proof. exact (C75_select_lemma w pr neg x y). Qed.
Print Assumptions C75_select.
Example C75_case : nearest64 (IZR (Z.of_N 9007199254740991)) (S754_finite false 9007199254740991 0) /\
  operands_from_f64 (S754_finite true 9007199254740991 0) = Ok (operands_from_unsigned 9007199254740991).
Proof.
  split; [|vm_compute; reflexivity]. rewrite <- dec_real_int. apply nearest64_dec. vm_compute. reflexivity.
Qed.
(** 2^53 + 1 is no float, so the bound is needed *)
Example C75_bound : exists x y, x < 2 ^ 64 /\ nearest64 (IZR (Z.of_N x)) y /\
  operands_from_f64 y <> Ok (operands_from_unsigned x).
Proof.
  exists 9007199254740993, (S754_finite false 4503599627370496 1). split; [reflexivity|]. split.
  - rewrite <- dec_real_int. apply nearest64_dec. vm_compute. reflexivity.
  - vm_compute. discriminate.
Qed.
