(** * Specifications about floating-point values

    The meaning of a float ([SF2R]) and of rounding ([round], [ZnearestE]) is
    Flocq's. *)
From Coq Require Import Reals Floats.SpecFloat.
From Flocq Require Import Core IEEE754.BinarySingleNaN.
From Verif Require Import Base.
Open Scope N_scope.

Definition radix10 : radix := Build_radix 10 eq_refl.

(** well-formed binary32 and binary64 data (canonical mantissa, exponent range) *)
Definition valid32 (x : spec_float) := valid_binary 24 128 x = true.
Definition valid64 (x : spec_float) := valid_binary 53 1024 x = true.

(** the exact real value of a numeral with digits [d], [v] of them after the point *)
Definition exact_value (d : N) (v : nat) : R := (IZR (Z.of_N d) / IZR (10 ^ Z.of_nat v))%R.

(** [y] is the binary64 number nearest to the non-negative real [x], ties to
    even, and +infinity when that is 2^1024 or more *)
Definition nearest64 (x : R) (y : spec_float) : Prop :=
  let r := round radix2 (FLT_exp (-1074) 53) ZnearestE x in
  ((r < bpow radix2 1024)%R /\ is_finite_SF y = true /\ sign_SF y = false /\ SF2R radix2 y = r /\
     valid_binary 53 1024 y = true)
  \/ ((bpow radix2 1024 <= r)%R /\ y = S754_infinity false).

(** NaN, or sign bit clear *)
Definition not_negative (x : spec_float) : Prop := x = S754_nan \/ sign_SF x = false.

(** [a] is closer to [v] than [b], or as close and not below *)
Definition closer (v a b : R) : Prop :=
  (Rabs (a - v) < Rabs (b - v))%R \/ (Rabs (a - v) = Rabs (b - v) /\ (b <= a)%R).
(** [d * 10^E] rounds to [y], no decimal with fewer significant digits does, and
    none without more decimal places is closer to [y] *)
Definition shortest_decimal (d : N) (E : Z) (y : spec_float) : Prop :=
  nearest64 (IZR (Z.of_N d) * bpow radix10 E) y /\
  (forall d' E' k, nearest64 (IZR (Z.of_N d') * bpow radix10 E') y -> 10 ^ k <= d -> 10 ^ k <= d') /\
  (forall d' E', nearest64 (IZR (Z.of_N d') * bpow radix10 E') y -> (E <= E')%Z ->
     closer (SF2R radix2 y) (IZR (Z.of_N d) * bpow radix10 E) (IZR (Z.of_N d') * bpow radix10 E')).

(** the value below which every integer is a float *)
Definition below_2_53 (y : spec_float) : Prop := (SF2R radix2 y < IZR (2 ^ 53))%R.

(** the same for binary32 *)
Definition nearest32 (x : R) (y : spec_float) : Prop :=
  let r := round radix2 (FLT_exp (-149) 24) ZnearestE x in
  ((r < bpow radix2 128)%R /\ is_finite_SF y = true /\ sign_SF y = false /\ SF2R radix2 y = r /\
     valid_binary 24 128 y = true)
  \/ ((bpow radix2 128 <= r)%R /\ y = S754_infinity false).
Definition shortest_decimal32 (d : N) (E : Z) (y : spec_float) : Prop :=
  nearest32 (IZR (Z.of_N d) * bpow radix10 E) y /\
  (forall d' E' k, nearest32 (IZR (Z.of_N d') * bpow radix10 E') y -> 10 ^ k <= d -> 10 ^ k <= d') /\
  (forall d' E', nearest32 (IZR (Z.of_N d') * bpow radix10 E') y -> (E <= E')%Z ->
     closer (SF2R radix2 y) (IZR (Z.of_N d) * bpow radix10 E) (IZR (Z.of_N d') * bpow radix10 E')).

(** the numeral with integer digits [i] and fraction digits [f], without a point when there are none *)
Definition numeral_text (i f : bytes) : bytes := (i ++ match f with [] => [] | _ => [46] ++ f end)%list.
(** [y] or its negation *)
Definition signed_f (neg : bool) (y : spec_float) : spec_float := if neg then SFopp y else y.
