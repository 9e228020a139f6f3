(** * When the integer part of a number repeats

    [repeats B P rules]: the rules take remainders by divisors of [P] only, and
    what they compare without taking a remainder is below [B]. *)
From Verif Require Import Base Ast GenRs.
Open Scope N_scope.

Definition item_below (B : N) (it : range_list_item) : Prop :=
  match it with RValue k => k < B | RRange r => lower_val r < B /\ upper_val r < B end.
Definition range_below (B : N) (it : range_list_item) : Prop :=
  match it with RValue _ => True | RRange _ => item_below B it end.
(** the generated code ignores the modulus of a range after [n] (C47), so these
    ranges count as compared without remainder *)
Definition relation_repeats (B P : N) (r : relation) : Prop :=
  match ex_modulus (rel_expr r) with
  | None => Forall (item_below B) (rel_list r)
  | Some m => (m | P) /\ (ex_operand (rel_expr r) = ON -> Forall (range_below B) (rel_list r))
  end.
Definition repeats (B P : N) (rules : list (category * condition)) : Prop :=
  Forall (fun rule => Forall (Forall (relation_repeats B P)) (snd rule)) rules.
