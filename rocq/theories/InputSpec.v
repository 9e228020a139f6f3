(** * What each kind of argument of [select] is converted to

    [select] takes anything that converts to operands (lib.rs:139-141).  Which
    conversion belongs to which type, written down once more; operands that are given
    are taken as they are. *)
From Verif Require Import Base Operands PluralRules.
Open Scope N_scope.

Definition converted (w : ptr_width) (x : input) : res operands :=
  match x with
  | InStr s | InString s => operands_from_str s
  | InUnsigned k => Ok (operands_from_unsigned k)
  | InSigned z => operands_from_signed w z
  | InF32 y => operands_from_f32 y
  | InF64 y => operands_from_f64 y
  | InOps po => Ok po
  end.
