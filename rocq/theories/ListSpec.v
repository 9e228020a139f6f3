(** * The "@integer" list of a rule (UTS #35, "Samples")

    "…" at the end of a list says that there are more numbers than those
    listed. *)
From Verif Require Import Base GenRs Ast.
Open Scope N_scope.

(** the list as the parser returns it; a rule without a list lists nothing *)
Definition integer_list (r : rule) : sample_list :=
  match ru_samples r with
  | Some (mkSamples (Some l) _) => l
  | _ => mkSL [] false
  end.
(** [x] is the number [s], or in the range [s] *)
Definition in_range (x : N) (s : sample_range) : Prop :=
  let last := match sr_upper s with Some u => u | None => sr_lower s end in
  dv_integer (sr_lower s) <= x <= dv_integer last.
Definition on_list (r : rule) (x : N) : Prop := Exists (in_range x) (sl_ranges (integer_list r)).
Definition has_more (r : rule) : bool := sl_ellipsis (integer_list r).
(** The texts of the category "other" are lists without a condition, and the
    parser drops these (see C42); their lists are read by putting any condition
    in front. *)
Definition list_text (c : category) (text : bytes) : bytes := match c with OTHER => bs "n = 0" ++ text | _ => text end.
