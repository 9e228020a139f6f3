(** * What else must fit when the generated code is compiled for a target

    [po.v] and [po.w] are of type [usize] (operands.rs:63-65), so on a 32-bit
    target the numbers compared with them have to fit in 32 bits. *)
From Verif Require Import Base Operands Ast GenRs CodeSpec.
Open Scope N_scope.

Definition counts_digits (o : operand) : bool := match o with OV | OW => true | _ => false end.
Definition item_numbers (it : range_list_item) : list N :=
  match it with RValue v => [v] | RRange r => [lower_val r; upper_val r] end.
Definition modulus_numbers (ex : expression) : list N := match ex_modulus ex with Some m => [m] | None => [] end.
(** the numbers of a relation that the code compares with [v] or [w], or divides them by *)
Definition usize_numbers (r : relation) : list N :=
  if counts_digits (ex_operand (rel_expr r)) then
    match rel_op r with
    | OpWithin | OpNotWithin =>
        match ex_modulus (rel_expr r), first_range (rel_list r) with
        | None, Some x => [lower_val x; upper_val x]
        | _, _ => []
        end
    | _ => flat_map (fun it => modulus_numbers (rel_expr r) ++ item_numbers it) (rel_list r)
    end
  else [].
Definition code_fits_on (target : ptr_width) (c : condition) : bool :=
  code_fits c && forallb (forallb (fun r => forallb (fun k => k <? @usize_limit target) (usize_numbers r))) c.
