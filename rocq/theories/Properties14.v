(** * Properties C89, C90: floating-point numbers of any size

    The statements use LengthSpec.v and [decimal_of] of FloatConf.v. *)
From Coq Require Import Lia Lra Reals Floats.SpecFloat.
From Flocq Require Import Core IEEE754.BinarySingleNaN.
From Verif Require Import Base F64 Operands Ast LangId GenRs PluralRules Tables Spec SpecR ApiProps Conformance
  Json Cldr BehaviourSpec LengthSpec FloatConf FloatAny F32Any.
Open Scope list_scope.
Open Scope N_scope.

(** C89 *)
Theorem C89_f64_right how id t pr w x : create how id t = Ok pr -> listed id (float_wrong t) = false ->
  valid64 x -> is_finite_SF x = true ->
  exists d E dd rules c, shortest_decimal d E (SFabs x) /\ (d = 0 \/ d mod 10 <> 0) /\ decimal_of d E dd /\
    In (id, rules) (cldr t) /\ select w pr (InF64 x) = Ok c /\ cldr_select rules dd c.
Proof. exact (C89_f64_lemma how id t pr w x). Qed.
Print Assumptions C89_f64_right.
Theorem C89_f64_wrong how id t pr w : create how id t = Ok pr -> listed id (float_wrong t) = true ->
  exists x d E dd rules c, valid64 x /\ is_finite_SF x = true /\
    shortest_decimal d E (SFabs x) /\ d mod 10 <> 0 /\ decimal_of d E dd /\
    In (id, rules) (cldr t) /\ select w pr (InF64 x) = Ok c /\ ~ cldr_select rules dd c.
Proof. exact (C89_wrong_lemma how id t pr w). Qed.
Print Assumptions C89_f64_wrong.
Theorem C89_f32_right how id t pr w x : create how id t = Ok pr -> listed id (float32_wrong t) = false ->
  valid32 x -> is_finite_SF x = true ->
  exists d E dd rules c, shortest_decimal32 d E (SFabs x) /\ (d = 0 \/ d mod 10 <> 0) /\ decimal_of d E dd /\
    In (id, rules) (cldr t) /\ select w pr (InF32 x) = Ok c /\ cldr_select rules dd c.
Proof. exact (C89_f32_lemma how id t pr w x). Qed.
Print Assumptions C89_f32_right.
Theorem C89_f32_wrong how id t pr w : create how id t = Ok pr -> listed id (float32_wrong t) = true ->
  exists x d E dd rules c, valid32 x /\ is_finite_SF x = true /\
    shortest_decimal32 d E (SFabs x) /\ d mod 10 <> 0 /\ decimal_of d E dd /\
    In (id, rules) (cldr t) /\ select w pr (InF32 x) = Ok c /\ ~ cldr_select rules dd c.
Proof. exact (C89_wrong32_lemma how id t pr w). Qed.
Print Assumptions C89_f32_wrong.
(** Icelandic is right for 2e22 (printed with 23 digits); Russian is not for the
    f64 36028797018963992, printed as 36028797018963990, but is for every f32 *)
Example C89_case : exists pr pr' c, create Halving (lang "is") CARDINAL = Ok pr /\ listed (lang "is") (float_wrong CARDINAL) = false /\
  valid64 (S754_finite true 4768371582031250 22) /\ f64_to_string (S754_finite true 4768371582031250 22) = bs "-20000000000000000000000" /\
  select W64 pr (InF64 (S754_finite true 4768371582031250 22)) = Ok OTHER /\
  create Halving (lang "ru") CARDINAL = Ok pr' /\ listed (lang "ru") (float_wrong CARDINAL) = true /\
  listed (lang "ru") (float32_wrong CARDINAL) = false /\
  f64_to_string (S754_finite false 4503599627370499 3) = bs "36028797018963990" /\
  select W64 pr' (InF64 (S754_finite false 4503599627370499 3)) = Ok FEW /\
  select W64 pr' (InStr (bs "990"%string)) = Ok c /\ c = MANY.
Proof.
  eexists. eexists. eexists. repeat (split; [vm_compute; reflexivity|]). reflexivity.
Qed.

(** C90 *)
Theorem C90_f32_operands x : valid32 x -> is_finite_SF x = true -> SFabs x <> S754_zero false ->
  exists d E n, shortest_decimal32 d E (SFabs x) /\ d mod 10 <> 0 /\ nearest64 (IZR (Z.of_N d) * bpow radix10 E) n /\
  let v := Z.to_N (- E) in
  operands_from_f32 x = Ok (mkOps n (N.min (d * 10 ^ Z.to_N E / 10 ^ v) (2 ^ 64 - 1)) v v (d mod 10 ^ v) (d mod 10 ^ v)).
Proof. exact (C90_lemma x). Qed.
Print Assumptions C90_f32_operands.
Example C90_case : valid32 (S754_finite false 16777215 40) /\
  operands_from_f32 (S754_finite false 16777215 40) =
    Ok (mkOps (dec_to_float 53 1024 false 18446743 12) 18446743000000000000 0 0 0 0) /\
  operands_from_f32 (S754_finite true 8388608 (-24)) = Ok (mkOps (dec_to_float 53 1024 false 5 (-1)) 0 1 1 5 5).
Proof. split; [reflexivity|]. split; vm_compute; reflexivity. Qed.
