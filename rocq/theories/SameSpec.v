(** * The parts of a condition that the generated code shows

    Written down from the AST alone.  Two conditions with the same parts give the
    same code (C110). *)
From Verif Require Import Base Ast.
Open Scope N_scope.

(** one test: of an operand, reduced by a modulus or not *)
Inductive check :=
| Equals (negated : bool) (o : operand) (m : option N) (v : N)
| Between (negated : bool) (o : operand) (m : option N) (lo hi : N)
| Lower (within : bool) (o : operand) (m : option N) (v : N)
| Upper (within : bool) (o : operand) (m : option N) (v : N).
(** a test, or a choice between lists of tests *)
Inductive part := One (k : check) | Any (l : list (list check)).

Definition of_n (o : operand) : bool := match o with ON => true | _ => false end.
(** [n] with a modulus is shown as [i] *)
Definition for_value (ex : expression) : operand :=
  match ex_modulus ex with Some _ => if of_n (ex_operand ex) then OI else ex_operand ex | None => ex_operand ex end.
(** for a range [n] is shown as [i], and without its modulus *)
Definition for_range (ex : expression) : operand := if of_n (ex_operand ex) then OI else ex_operand ex.
Definition range_modulus (ex : expression) : option N := if of_n (ex_operand ex) then None else ex_modulus ex.
(** for [within] everything with a modulus is shown as [i] *)
Definition for_within (ex : expression) : operand := match ex_modulus ex with Some _ => OI | None => ex_operand ex end.

Definition checks (negated : bool) (ex : expression) (it : range_list_item) : list check :=
  match it with
  | RValue v => [Equals negated (for_value ex) (ex_modulus ex) v]
  | RRange r =>
      Between negated (for_range ex) (range_modulus ex) (lower_val r) (upper_val r) ::
      match ex_operand ex, ex_modulus ex with ON, None => [Equals false OF None 0] | _, _ => [] end
  end.
(** values come before ranges *)
Definition is_a_value (it : range_list_item) : bool := match it with RValue _ => true | RRange _ => false end.
Definition in_order (l : range_list) : range_list :=
  List.filter is_a_value l ++ List.filter (fun it => negb (is_a_value it)) l.
Definition bounds (within : bool) (ex : expression) (l : range_list) : list part :=
  match List.filter (fun it => negb (is_a_value it)) l with
  | RRange r :: _ =>
      [One (Lower within (for_within ex) (ex_modulus ex) (lower_val r)); One (Upper within (for_within ex) (ex_modulus ex) (upper_val r))]
  | _ => []
  end.
Definition relation_parts (r : relation) : list part :=
  match rel_op r with
  | OpIn | OpIs | OpEQ =>
      match List.map (checks false (rel_expr r)) (in_order (rel_list r)) with
      | [c] => List.map One c
      | l => [Any l]
      end
  | OpNotIn | OpIsNot | OpNotEQ => List.map One (flat_map (checks true (rel_expr r)) (in_order (rel_list r)))
  | OpWithin => bounds true (rel_expr r) (rel_list r)
  | OpNotWithin => bounds false (rel_expr r) (rel_list r)
  end.
Definition parts (c : condition) : list (list part) := List.map (flat_map relation_parts) c.
