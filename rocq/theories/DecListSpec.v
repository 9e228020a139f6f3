(** * The "@decimal" list of a rule (UTS #35, "Samples")

    The numbers listed there are written with fraction digits. *)
From Verif Require Import Base Ast Spec.
Open Scope N_scope.

Definition decimal_list (r : rule) : option sample_list :=
  match ru_samples r with Some s => sa_decimal s | None => None end.
Definition has_decimals (r : rule) : bool := match decimal_list r with Some _ => true | None => false end.
(** the list ends with "…" *)
Definition more_decimals (r : rule) : bool := match decimal_list r with Some l => sl_ellipsis l | None => false end.
(** the digits after a decimal point *)
Definition fraction (f : list N) : Prop := f <> [] /\ Forall (fun x => x < 10) f.
