(** * Properties C87, C88: numbers in exponent notation, numbers of any length

    The statements use ExpSpec.v and LengthSpec.v. *)
From Coq Require Import Lia Lra Reals Floats.SpecFloat.
From Flocq Require Import Core IEEE754.BinarySingleNaN.
From Verif Require Import Base F64 Operands Ast LangId GenRs PluralRules Tables Spec SpecR ApiProps Conformance ExpSpec DigitFacts ExpProps
  Json Cldr BehaviourSpec LengthSpec FloatConf LengthProps LengthFloat.
Open Scope list_scope.
Open Scope N_scope.

(** C87: the full claim, that a number in exponent notation gets the category of
    the plain numeral of the same value, fails for negative exponents *)
Theorem C87_exponent_refuted : exists pr s i e s' d, create Halving (lang "en") CARDINAL = Ok pr /\
  exponent_text s i true e /\ numeral s' d /\ small d /\ exponent_value i true e = exact_value (uts_num d) (List.length (d_frac d)) /\
  select W64 pr (InStr s) = Ok ONE /\ select W64 pr (InStr s') = Ok OTHER.
Proof. exact C87_refuted_lemma. Qed.
Print Assumptions C87_exponent_refuted.
(** exponents that are not negative, of any size *)
Theorem C87_exponent_partial s i e : exponent_text s i false e ->
  exists sg r, s = sg ++ i ++ r /\ minus_opt sg /\
  operands_from_str s = operands_from_str (sg ++ i ++ repeat 48 (N.to_nat e)).
Proof. exact (C87_positive_lemma s i e). Qed.
Print Assumptions C87_exponent_partial.
(** the operands in general *)
Theorem C87_exponent_operands s i neg e : exponent_text s i neg e ->
  exists n k, operands_from_str s = Ok (mkOps n k 0 0 0 0) /\ integer_part n k /\
  (neg = false \/ e < 65536 \/ N.of_nat (List.length i) <= 65000 -> nearest64 (exponent_value i neg e) n).
Proof. exact (C87_value_lemma s i neg e). Qed.
Print Assumptions C87_exponent_operands.
Example C87_case : exponent_text (bs "-12e+3") (bs "12") false 3 /\ exponent_text (bs "5E-2") (bs "5") true 2 /\
  exponent_text (bs "1e99999999999999999999999") (bs "1") false 99999999999999999999999 /\
  operands_from_str (bs "-12e+3") = operands_from_str (bs "12000") /\
  operands_from_str (bs "25e-1") = Ok (mkOps (S754_finite false 5629499534213120 (-51)) 2 0 0 0 0) /\
  operands_from_str (bs "1e400") = Ok (mkOps (S754_infinity false) 18446744073709551615 0 0 0 0).
Proof.
  assert (D : forall s, forallb is_digit s = true -> digits s) by (intro s; apply digits_forallb).
  split; [exists [45], 101, [43], (bs "3")|split; [exists [], 69, [45], (bs "2")|split; [exists [], 101, [], (bs "99999999999999999999999")|]]];
    try (split; [reflexivity|]; split; [now (left + right)|]; split; [now apply D|]; split; [discriminate|]; split; [now (left + right)|];
         split; [now (idtac + left + right)|]; split; [now apply D|]; split; [discriminate|reflexivity]).
  split; [vm_compute; reflexivity|]. split; vm_compute; reflexivity.
Qed.

(** C88 *)
Theorem C88_any_length how id t pr w s d : create how id t = Ok pr -> listed id (any_length t) = true ->
  numeral s d -> accepted s ->
  exists rules c, In (id, rules) (cldr t) /\ select w pr (InStr s) = Ok c /\ cldr_select rules d c.
Proof. exact (C88_safe_lemma how id t pr w s d). Qed.
Print Assumptions C88_any_length.
Theorem C88_length_matters how id t pr w : create how id t = Ok pr -> listed id (any_length t) = false ->
  exists s d rules c, numeral s d /\ accepted s /\ In (id, rules) (cldr t) /\ select w pr (InStr s) = Ok c /\ ~ cldr_select rules d c.
Proof. exact (C88_wrong_lemma how id t pr w). Qed.
Print Assumptions C88_length_matters.
(** floating-point numbers of any size *)
Theorem C88_any_f64 how id t pr w x : create how id t = Ok pr -> listed id (any_length t) = true ->
  valid64 x -> is_finite_SF x = true ->
  exists d E dd rules c, shortest_decimal d E (SFabs x) /\ (d = 0 \/ d mod 10 <> 0) /\ decimal_of d E dd /\
    In (id, rules) (cldr t) /\ select w pr (InF64 x) = Ok c /\ cldr_select rules dd c.
Proof. exact (C88_f64_lemma how id t pr w x). Qed.
Print Assumptions C88_any_f64.
Theorem C88_any_f32 how id t pr w x : create how id t = Ok pr -> listed id (any_length t) = true ->
  valid32 x -> is_finite_SF x = true ->
  exists d E dd rules c, shortest_decimal32 d E (SFabs x) /\ (d = 0 \/ d mod 10 <> 0) /\ decimal_of d E dd /\
    In (id, rules) (cldr t) /\ select w pr (InF32 x) = Ok c /\ cldr_select rules dd c.
Proof. exact (C88_f32_lemma how id t pr w x). Qed.
Print Assumptions C88_any_f32.
Example C88_case : exists pr pr', create Halving (lang "da") CARDINAL = Ok pr /\ listed (lang "da") (any_length CARDINAL) = true /\
  create Halving (lang "lag") CARDINAL = Ok pr' /\ listed (lang "lag") (any_length CARDINAL) = false /\
  select W64 pr (InStr (bs "1.0000000000000001"%string)) = Ok ONE /\
  select W64 pr (InStr (bs "123456789012345678901234567890"%string)) = Ok OTHER /\
  select W64 pr' (InStr (bs "0."%string ++ repeat 48 330 ++ bs "1"%string)) = Ok ZERO /\
  valid64 (S754_finite true 4503599627370496 971) /\ select W64 pr (InF64 (S754_finite true 4503599627370496 971)) = Ok OTHER /\
  valid32 (S754_finite false 1 (-149)) /\ select W64 pr (InF32 (S754_finite false 1 (-149))) = Ok ONE.
Proof.
  eexists. eexists. split; [vm_compute; reflexivity|]. split; [vm_compute; reflexivity|]. split; [vm_compute; reflexivity|].
  repeat (split; [vm_compute; reflexivity|]). vm_compute. reflexivity.
Qed.
