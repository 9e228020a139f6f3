(** * What is enough to know of a number

    [view B P V F Q d] keeps finitely much of [d]: the integer part if it is below
    [B], else its place in a period of length [P]; the number of fraction digits up
    to [V]; the fraction digits if they are below [F], else their place in a period
    of length [Q]. *)
From Verif Require Import Base Ast GenRs Spec RepeatSpec.
Open Scope N_scope.

(** [x] itself or its place in the period that starts at [B] *)
Definition place (B P x : N) : N := if x <? B then x else B + (x - B) mod P.
Definition view (B P V F Q : N) (d : decimal) : N * N * N := (place B P (uts_i d), N.min (uts_v d) V, place F Q (uts_f d)).
Definition is_zero (it : range_list_item) : Prop := it = RValue 0.
(** a relation that can be decided from the view *)
Definition relation_viewed (B P V F Q : N) (r : relation) : Prop :=
  rel_op r <> OpWithin /\ rel_op r <> OpNotWithin /\
  match ex_operand (rel_expr r), ex_modulus (rel_expr r) with
  | ON, _ | OI, _ => relation_repeats B P r
  | OV, None => Forall (item_below V) (rel_list r)
  | OF, Some m => (m | Q)
  | OF, None => Forall (item_below F) (rel_list r)
  | OT, None => Forall is_zero (rel_list r)
  | _, _ => False
  end.
Definition viewed (B P V F Q : N) (rules : list (category * condition)) : Prop :=
  Forall (fun rule => Forall (Forall (relation_viewed B P V F Q)) (snd rule)) rules.
