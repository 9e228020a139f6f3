(** * Integers written out in full (C122)

    A text without a decimal point is read as the nearest binary64 number, and the
    integer operand is that number cut to 64 bits. *)
From Coq Require Import Reals Floats.SpecFloat.
From Flocq Require Import Core IEEE754.BinarySingleNaN.
From Verif Require Import Base LangId GenRs Spec SpecR BehaviourSpec.
Open Scope N_scope.

(** the 64-bit integer as which the integer [D] is read *)
Definition read_as (D u : N) : Prop :=
  exists y, nearest64 (IZR (Z.of_N D)) y /\
    ((y = S754_infinity false /\ u = 2 ^ 64 - 1)
     \/ (is_finite_SF y = true /\ exists k, SF2R radix2 y = IZR (Z.of_N k) /\ u = N.min k (2 ^ 64 - 1))).

(** locales whose categories depend on the last digits of large integers *)
Definition last_digits_matter (t : pr_type) : string :=
  match t with
  | CARDINAL => "ar ars be br bs ceb dsb fil gv he hr hsb is iw kw lt lv mk mo mt pl prg ro ru sh sl sr tl uk"%string
  | ORDINAL => "az be en ka kk kw mk sq sv tk uk"%string
  end.
