(** * Specifications

    What the properties mean, written independently of the model: decimal
    numerals, the UTS #35 operands and the UTS #35 relation semantics. *)
From Verif Require Import Base Ast.
Open Scope N_scope.

(** ** Decimal digit strings *)
Definition digit_char (c : N) : Prop := 48 <= c <= 57.
Definition digits (s : bytes) : Prop := Forall digit_char s.

(** positional value *)
Fixpoint dval (s : bytes) : N :=
  match s with
  | [] => 0
  | c :: r => (c - 48) * 10 ^ N.of_nat (List.length r) + dval r
  end.

(** [g] is [s] without its trailing zeros *)
Definition without_trailing_zeros (s g : bytes) : Prop :=
  (exists z, s = g ++ repeat 48 z) /\ (forall g', g <> g' ++ [48]).

(** ** UTS #35 plural operands of an exact decimal

    A number given with its visible fraction digits: [d_int] is the integer
    part, [d_frac] the list of visible fraction digits (values 0-9). *)
Record decimal := mkDecimal { d_int : N; d_frac : list N }.

Fixpoint frac_value (l : list N) : N :=
  match l with
  | [] => 0
  | d :: r => d * 10 ^ N.of_nat (List.length r) + frac_value r
  end.
Fixpoint strip_trailing (l : list N) : list N :=
  match l with
  | [] => []
  | d :: r => match strip_trailing r with
              | [] => if d =? 0 then [] else [d]
              | r' => d :: r'
              end
  end.

(** UTS #35, table "Plural Operand Meanings" *)
Definition uts_i (d : decimal) : N := d_int d.
Definition uts_v (d : decimal) : N := N.of_nat (List.length (d_frac d)).
Definition uts_w (d : decimal) : N := N.of_nat (List.length (strip_trailing (d_frac d))).
Definition uts_f (d : decimal) : N := frac_value (d_frac d).
Definition uts_t (d : decimal) : N := frac_value (strip_trailing (d_frac d)).
(** [n] is the rational [uts_num d / uts_den d] *)
Definition uts_den (d : decimal) : N := 10 ^ uts_v d.
Definition uts_num (d : decimal) : N := d_int d * uts_den d + uts_f d.

(** value of an operand as a fraction (numerator, denominator) *)
Definition uts_operand (o : operand) (d : decimal) : N * N :=
  match o with
  | ON => (uts_num d, uts_den d)
  | OI => (uts_i d, 1)
  | OV => (uts_v d, 1)
  | OW => (uts_w d, 1)
  | OF => (uts_f d, 1)
  | OT => (uts_t d, 1)
  end.

(** remainder of a fraction by a positive integer: [x - m * floor (x / m)] *)
Definition uts_expr (e : expression) (d : decimal) : N * N :=
  let '(a, b) := uts_operand (ex_operand e) d in
  match ex_modulus e with
  | None => (a, b)
  | Some m => (a mod (m * b), b)
  end.

(** UTS #35 relations: [in]/[=] hold for integers in the list only, [within]
    also for the fractions between the ends of a range *)
Definition item_in (x : N * N) (it : range_list_item) : bool :=
  let '(a, b) := x in
  match it with
  | RValue k => a =? k * b
  | RRange r => (a mod b =? 0) && (lower_val r * b <=? a) && (a <=? upper_val r * b)
  end.
Definition item_within (x : N * N) (it : range_list_item) : bool :=
  let '(a, b) := x in
  match it with
  | RValue k => a =? k * b
  | RRange r => (lower_val r * b <=? a) && (a <=? upper_val r * b)
  end.

Definition uts_relation (r : relation) (d : decimal) : bool :=
  let x := uts_expr (rel_expr r) d in
  match rel_op r with
  | OpIn | OpIs | OpEQ => existsb (item_in x) (rel_list r)
  | OpNotIn | OpIsNot | OpNotEQ => negb (existsb (item_in x) (rel_list r))
  | OpWithin => existsb (item_within x) (rel_list r)
  | OpNotWithin => negb (existsb (item_within x) (rel_list r))
  end.
Definition uts_and (a : and_condition) (d : decimal) : bool :=
  forallb (fun r => uts_relation r d) a.
(** an [or] of [and]s *)
Definition uts_condition (c : condition) (d : decimal) : bool :=
  existsb (fun a => uts_and a d) c.

(** ** Rust's number syntax as the conversion accepts it (property C05) *)
Definition minus_opt (s : bytes) : Prop := s = [] \/ s = [45].
Definition sign_opt (s : bytes) : Prop := s = [] \/ s = [43] \/ s = [45].
Definition exponent (s : bytes) : Prop :=
  s = [] \/
  exists c sg d, s = c :: sg ++ d /\ (c = 101 \/ c = 69) /\ sign_opt sg /\ digits d /\ d <> [].
(** "inf", "infinity" or "nan" in any letter case *)
Definition ascii_lower (c : N) : N := if (65 <=? c) && (c <=? 90) then c + 32 else c.
Definition special_word (s : bytes) : Prop :=
  In (List.map ascii_lower s) [bs "inf"; bs "infinity"; bs "nan"].

Inductive accepted_abs : bytes -> Prop :=
| acc_integer sg i ex :
    sign_opt sg -> digits i -> i <> [] -> exponent ex -> accepted_abs (sg ++ i ++ ex)
| acc_special sg w :
    sign_opt sg -> special_word w -> accepted_abs (sg ++ w)
| acc_fraction plus i f :
    plus = [] \/ plus = [43] ->
    digits i -> digits f -> i <> [] -> f <> [] -> dval i < 2 ^ 64 -> dval f < 2 ^ 64 ->
    accepted_abs (plus ++ i ++ [46] ++ f).

(** one optional leading minus sign is removed first *)
Definition accepted (s : bytes) : Prop :=
  exists t, (s = 45 :: t \/ (s = t /\ forall r, s <> 45 :: r)) /\ accepted_abs t.

(** ** Decimal numerals *)

(** [s] is a plain decimal numeral, optionally with a minus sign and a fraction,
    and [d] its absolute value with visible fraction digits *)
Definition numeral (s : bytes) (d : decimal) : Prop :=
  exists sg i f, minus_opt sg /\ digits i /\ i <> [] /\ digits f /\
    s = sg ++ i ++ (match f with [] => [] | _ => 46 :: f end) /\
    d = mkDecimal (dval i) (List.map (fun c => c - 48) f).

(** all digits read as one integer fit the precision of [f64], and there are at
    most 307 fraction digits *)
Definition small (d : decimal) : Prop := uts_num d < 2 ^ 53 /\ uts_v d <= 307.

(** the value is an integer *)
Definition integral (d : decimal) : bool := uts_f d =? 0.

(** ** Conditions the generator supports (property C45)

    [assume_int]: the number is known to be an integer. *)
Definition is_zero_list (l : range_list) : bool :=
  match l with [] => false | _ => forallb (fun x => match x with RValue 0 => true | _ => false end) l end.
(** relations that only hold for integers and are generated faithfully *)
Definition integer_guard (r : relation) : bool :=
  match rel_op r, ex_operand (rel_expr r), ex_modulus (rel_expr r) with
  | (OpIn | OpIs | OpEQ), (OV | OW | OF | OT), None => is_zero_list (rel_list r)
  | (OpIn | OpIs | OpEQ), ON, None => true
  | _, _, _ => false
  end.
Definition value_below (b : N) (x : range_list_item) : bool :=
  match x with RValue v => v <? b | RRange r => (lower_val r <? b) && (upper_val r <? b) end.
Definition is_value (x : range_list_item) : bool := match x with RValue _ => true | RRange _ => false end.
Definition is_negated (op : operator) : bool :=
  match op with OpNotIn | OpIsNot | OpNotEQ | OpNotWithin => true | _ => false end.
Definition supported_relation (assume_int : bool) (r : relation) : bool :=
  match rel_op r with OpWithin | OpNotWithin => false | _ => true end &&
  match rel_list r with [] => false | _ => true end &&
  match ex_modulus (rel_expr r) with Some m => (0 <? m) && (m <? 2 ^ 64) | None => true end &&
  match ex_operand (rel_expr r), ex_modulus (rel_expr r) with
  | ON, None =>
      forallb (value_below (2 ^ 53)) (rel_list r) &&
      (negb (is_negated (rel_op r)) || assume_int || forallb is_value (rel_list r))
  | ON, Some _ => assume_int && forallb (value_below (2 ^ 64)) (rel_list r) && forallb is_value (rel_list r)
  | _, _ => forallb (value_below (2 ^ 64)) (rel_list r)
  end.
Definition supported_and (assume_int : bool) (a : and_condition) : bool :=
  match a with [] => false | _ => true end &&
  forallb (supported_relation (assume_int || existsb integer_guard a)) a.
Definition supported (assume_int : bool) (c : condition) : bool :=
  match c with [] => false | _ => true end && forallb (supported_and assume_int) c.
