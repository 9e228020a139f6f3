(** * Numbers in exponent notation

    Used by the statement of C87. *)
From Coq Require Import Reals Floats.SpecFloat.
From Flocq Require Import Core IEEE754.BinarySingleNaN.
From Verif Require Import Base Spec SpecR.
Open Scope N_scope.

(** [s] is the integer digits [i] with the exponent [e], negative if [neg]: "-12e+3", "5E-2" *)
Definition exponent_text (s i : bytes) (neg : bool) (e : N) : Prop :=
  exists sg c es d, s = sg ++ i ++ c :: es ++ d /\ minus_opt sg /\ digits i /\ i <> [] /\ (c = 101 \/ c = 69) /\
    (if neg then es = [45] else es = [] \/ es = [43]) /\ digits d /\ d <> [] /\ dval d = e.
(** the number it denotes *)
Definition exponent_value (i : bytes) (neg : bool) (e : N) : R :=
  (IZR (Z.of_N (dval i)) * bpow radix10 (if neg then - Z.of_N e else Z.of_N e))%R.
(** the integer part of a float that is not negative, at most 2^64-1 *)
Definition integer_part (x : spec_float) (k : N) : Prop :=
  (x = S754_infinity false /\ k = 2 ^ 64 - 1) \/
  (is_finite_SF x = true /\ Z.of_N k = Z.min (Zfloor (SF2R radix2 x)) (2 ^ 64 - 1)).
