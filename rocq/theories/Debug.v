(** * The derived [Debug], written with ["{:?}"]

    What failed assertions and [expect] show.  Only the one-line form is modelled. *)
From Coq Require Import Floats.SpecFloat.
From Verif Require Import Base F64 Operands Ast GenRs.
Open Scope N_scope.

(** ** Floats

    core::fmt::float: [Debug] writes at least one fraction digit and keeps the sign
    of zero.  Since Rust 1.58 numbers from 1e16 on and below 1e-4 are written with an
    exponent; [sci] says which version. *)
(** flt2dec::digits_to_dec_str with [frac_digits = 1] *)
Definition with_fraction (ds : bytes) (E : Z) : bytes :=
  digits_to_dec_str ds E ++ (if (E <? 0)%Z then [] else bs ".0").
(** flt2dec::digits_to_exp_str *)
Definition with_exponent (ds : bytes) (E : Z) : bytes :=
  let x := (Z.of_nat (List.length ds) - 1 + E)%Z in
  match ds with
  | [] => []
  | c :: r => c :: match r with [] => [] | _ => 46 :: r end ++ bs "e" ++ (if (x <? 0)%Z then bs "-" else []) ++ dec_of_N (Z.to_N (Z.abs x))
  end.
Definition needs_exponent (x : f64) : bool :=
  SFleb (dec_to_float 53 1024 false 1 16) x || SFltb x (dec_to_float 53 1024 false 1 (-4)).
Definition debug_f64 (sci : bool) (x : f64) : bytes :=
  match x with
  | S754_nan => bs "NaN"
  | S754_infinity s => (if s : bool then bs "-" else []) ++ bs "inf"
  | S754_zero s => (if s : bool then bs "-" else []) ++ bs "0.0"
  | S754_finite s m e =>
      (if s : bool then bs "-" else []) ++
      match shortest 53 1024 m e with
      | Some (d, E) => if sci && needs_exponent (S754_finite false m e) then with_exponent (dec_of_N d) E else with_fraction (dec_of_N d) E
      | None => bs "?"   (* unreachable for valid floats, as in [float_to_string] *)
      end
  end.

(** ** operands.rs:57-71, lib.rs:42-50 (and plural_category.rs:4-12) *)
Definition debug_operands (sci : bool) (po : operands) : bytes :=
  bs "PluralOperands { n: " ++ debug_f64 sci (op_n po) ++ bs ", i: " ++ dec_of_N (op_i po) ++
  bs ", v: " ++ dec_of_N (op_v po) ++ bs ", w: " ++ dec_of_N (op_w po) ++
  bs ", f: " ++ dec_of_N (op_f po) ++ bs ", t: " ++ dec_of_N (op_t po) ++ bs " }".
Definition debug_category (c : category) : bytes :=
  bs match c with ZERO => "ZERO" | ONE => "ONE" | TWO => "TWO" | FEW => "FEW" | MANY => "MANY" | OTHER => "OTHER" end.

(** ** ast.rs *)
Section Lists.
Context {A : Type} (show : A -> bytes).
Definition debug_option (o : option A) : bytes :=
  match o with None => bs "None" | Some a => bs "Some(" ++ show a ++ bs ")" end.
Fixpoint debug_rest (l : list A) : bytes :=
  match l with [] => bs "]" | a :: l => bs ", " ++ show a ++ debug_rest l end.
Definition debug_vec (l : list A) : bytes :=
  bs "[" ++ match l with [] => bs "]" | a :: l => show a ++ debug_rest l end.
End Lists.
(** ast.rs:339-340, 316-320, 290-294, 283-284 *)
Definition debug_value (v : value) : bytes := bs "Value(" ++ dec_of_N v ++ bs ")".
Definition debug_range (r : range) : bytes :=
  bs "Range { lower_val: " ++ debug_value (lower_val r) ++ bs ", upper_val: " ++ debug_value (upper_val r) ++ bs " }".
Definition debug_item (it : range_list_item) : bytes :=
  match it with RRange r => bs "Range(" ++ debug_range r ++ bs ")" | RValue v => bs "Value(" ++ debug_value v ++ bs ")" end.
Definition debug_list (l : range_list) : bytes := bs "RangeList(" ++ debug_vec debug_item l ++ bs ")".
(** ast.rs:252-260, 232-233, 209-213, 176-186 *)
Definition debug_operand (o : operand) : bytes :=
  bs match o with ON => "N" | OI => "I" | OV => "V" | OW => "W" | OF => "F" | OT => "T" end.
Definition debug_modulo (m : value) : bytes := bs "Modulo(" ++ debug_value m ++ bs ")".
Definition debug_expression (e : expression) : bytes :=
  bs "Expression { operand: " ++ debug_operand (ex_operand e) ++ bs ", modulus: " ++ debug_option debug_modulo (ex_modulus e) ++ bs " }".
Definition debug_operator (o : operator) : bytes :=
  bs match o with
     | OpIn => "In" | OpNotIn => "NotIn" | OpWithin => "Within" | OpNotWithin => "NotWithin"
     | OpIs => "Is" | OpIsNot => "IsNot" | OpEQ => "EQ" | OpNotEQ => "NotEQ"
     end.
(** ast.rs:154-159, 126-127, 88-89 *)
Definition debug_relation (r : relation) : bytes :=
  bs "Relation { expression: " ++ debug_expression (rel_expr r) ++ bs ", operator: " ++ debug_operator (rel_op r) ++
  bs ", range_list: " ++ debug_list (rel_list r) ++ bs " }".
Definition debug_and (a : and_condition) : bytes := bs "AndCondition(" ++ debug_vec debug_relation a ++ bs ")".
Definition debug_condition (c : condition) : bytes := bs "Condition(" ++ debug_vec debug_and c ++ bs ")".
(** ast.rs:25-29, 19-23, 13-17, 7-11, 1-5 *)
Definition debug_decimal (d : decimal_value) : bytes :=
  bs "DecimalValue { integer: " ++ debug_value (dv_integer d) ++ bs ", decimal: " ++ debug_option debug_value (dv_decimal d) ++ bs " }".
Definition debug_sample_range (r : sample_range) : bytes :=
  bs "SampleRange { lower_val: " ++ debug_decimal (sr_lower r) ++ bs ", upper_val: " ++ debug_option debug_decimal (sr_upper r) ++ bs " }".
Definition debug_bool (b : bool) : bytes := bs (if b then "true" else "false").
Definition debug_sample_list (l : sample_list) : bytes :=
  bs "SampleList { sample_ranges: " ++ debug_vec debug_sample_range (sl_ranges l) ++ bs ", ellipsis: " ++ debug_bool (sl_ellipsis l) ++ bs " }".
Definition debug_samples (s : samples) : bytes :=
  bs "Samples { integer: " ++ debug_option debug_sample_list (sa_integer s) ++ bs ", decimal: " ++ debug_option debug_sample_list (sa_decimal s) ++ bs " }".
Definition debug_rule (r : rule) : bytes :=
  bs "Rule { condition: " ++ debug_condition (ru_condition r) ++ bs ", samples: " ++ debug_option debug_samples (ru_samples r) ++ bs " }".
