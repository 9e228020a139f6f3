(** * What the generated condition tests

    Written down from the AST alone, without tokens or Rust syntax: which operand
    is looked at, against which bounds.  Compare with the meaning UTS #35 gives the
    same AST (Spec.v). *)
From Coq Require Import Floats.SpecFloat.
From Verif Require Import Base F64 Operands Ast GenRs.
Open Scope N_scope.

(** the integer operand looked at: [i] stands in for [n] *)
Definition code_operand (o : operand) (po : operands) : N :=
  match o with
  | ON | OI => op_i po
  | OV => op_v po | OW => op_w po | OF => op_f po | OT => op_t po
  end.
Definition reduced (m : option N) (x : N) : N := match m with Some m => x mod m | None => x end.
(** [n] itself, without modulus: compared as a floating-point number *)
Definition plain_n (ex : expression) : bool :=
  match ex_operand ex, ex_modulus ex with ON, None => true | _, _ => false end.
Definition on_n (ex : expression) : bool := match ex_operand ex with ON => true | _ => false end.
Definition between (lo x hi : N) : bool := (lo <=? x) && (x <=? hi).

Definition code_value (ex : expression) (v : N) (po : operands) : bool :=
  if plain_n ex then SFeqb (op_n po) (f64_of_N v)
  else reduced (ex_modulus ex) (code_operand (ex_operand ex) po) =? v.
(** a range after [n] is looked up with [i], whatever the modulus *)
Definition code_range (ex : expression) (r : range) (po : operands) : bool :=
  between (lower_val r)
    (if on_n ex then op_i po else reduced (ex_modulus ex) (code_operand (ex_operand ex) po)) (upper_val r).
(** an item of [=], [in], [is], and of their negations: the test of [f] is outside
    the negation *)
Definition no_fraction (ex : expression) (po : operands) : bool :=
  if plain_n ex then op_f po =? 0 else true.
Definition code_item (ex : expression) (po : operands) (it : range_list_item) : bool :=
  match it with
  | RValue v => code_value ex v po
  | RRange r => code_range ex r po && no_fraction ex po
  end.
Definition code_not_item (ex : expression) (po : operands) (it : range_list_item) : bool :=
  match it with
  | RValue v => negb (code_value ex v po)
  | RRange r => negb (code_range ex r po) && no_fraction ex po
  end.
(** [within] and [not within] only look at the first range, and a modulus is taken
    of [i] whatever the operand *)
Fixpoint first_range (l : range_list) : option range :=
  match l with
  | [] => None
  | RRange r :: _ => Some r
  | RValue _ :: l => first_range l
  end.
Definition within_operand (ex : expression) (po : operands) : N :=
  match ex_modulus ex with Some m => op_i po mod m | None => code_operand (ex_operand ex) po end.
Definition code_within (ex : expression) (r : range) (po : operands) : bool :=
  if plain_n ex then SFleb (f64_of_N (lower_val r)) (op_n po) && SFleb (op_n po) (f64_of_N (upper_val r))
  else between (lower_val r) (within_operand ex po) (upper_val r).
Definition code_not_within (ex : expression) (r : range) (po : operands) : bool :=
  if plain_n ex then SFltb (op_n po) (f64_of_N (lower_val r)) && SFltb (f64_of_N (upper_val r)) (op_n po)
  else (within_operand ex po <? lower_val r) && (upper_val r <? within_operand ex po).

Definition code_relation (po : operands) (r : relation) : bool :=
  match rel_op r with
  | OpIn | OpIs | OpEQ => existsb (code_item (rel_expr r) po) (rel_list r)
  | OpNotIn | OpIsNot | OpNotEQ => forallb (code_not_item (rel_expr r) po) (rel_list r)
  | OpWithin => match first_range (rel_list r) with Some x => code_within (rel_expr r) x po | None => false end
  | OpNotWithin => match first_range (rel_list r) with Some x => code_not_within (rel_expr r) x po | None => false end
  end.
Definition code_condition (c : condition) (po : operands) : bool :=
  existsb (forallb (code_relation po)) c.

(** Which conditions give code that compiles: every number that appears as an
    integer fits in [u64], and no modulus that appears is 0. *)
Definition modulus_fits (ex : expression) : bool :=
  match ex_modulus ex with Some m => negb (m =? 0) && (m <? 2 ^ 64) | None => true end.
Definition literal_fits (ex : expression) (v : N) : bool := plain_n ex || (v <? 2 ^ 64).
Definition code_item_fits (ex : expression) (it : range_list_item) : bool :=
  match it with
  | RValue v => modulus_fits ex && literal_fits ex v
  | RRange r => (on_n ex || modulus_fits ex) && (lower_val r <? 2 ^ 64) && (upper_val r <? 2 ^ 64)
  end.
Definition code_relation_fits (r : relation) : bool :=
  match rel_op r with
  | OpWithin | OpNotWithin =>
      match first_range (rel_list r) with
      | Some x => modulus_fits (rel_expr r) && literal_fits (rel_expr r) (lower_val x) && literal_fits (rel_expr r) (upper_val x)
      | None => false
      end
  | _ => forallb (code_item_fits (rel_expr r)) (rel_list r)
  end.
Definition code_fits (c : condition) : bool := forallb (forallb code_relation_fits) c.

(** a [within] relation without a range *)
Definition lacks_range (r : relation) : bool :=
  match rel_op r with
  | OpWithin | OpNotWithin => match first_range (rel_list r) with Some _ => false | None => true end
  | _ => false
  end.
Definition lacks_ranges (c : condition) : bool := existsb (existsb lacks_range) c.
(** no list of the condition is empty *)
Definition no_gaps (c : condition) : Prop := c <> [] /\ Forall (fun a => a <> [] /\ Forall (fun r => rel_list r <> []) a) c.

(** A modulus 0 that ends up in the code. *)
Definition zero_modulus (r : relation) : bool :=
  match ex_modulus (rel_expr r) with
  | Some 0 =>
      match rel_op r with
      | OpWithin | OpNotWithin => true
      | _ => existsb (fun it => match it with RValue _ => true | RRange _ => negb (on_n (rel_expr r)) end) (rel_list r)
      end
  | _ => false
  end.

(** The category the generated function returns: that of the first rule other than
    OTHER whose test succeeds, the rules being in the order of their keys. *)
Definition code_select (cs : list (category * condition)) (po : operands) : category :=
  match List.find (fun cc => match fst cc with OTHER => false | _ => code_condition (snd cc) po end) cs with
  | Some (c, _) => c
  | None => OTHER
  end.
