(** * cldr_pluralrules_parser/src/ast.rs

    The newtypes [Value(usize)], [Modulo(Value)], [RangeList(Vec<..>)],
    [AndCondition(Vec<..>)] and [Condition(Vec<..>)] are represented by their
    contents. *)
From Verif Require Import Base.

(** ast.rs:340 [Value(pub usize)] *)
Definition value := N.

(** ast.rs:317-320 [Range] *)
Record range := mkRange { lower_val : value; upper_val : value }.

(** ast.rs:291-294 [RangeListItem], ast.rs:284 [RangeList] *)
Inductive range_list_item := RRange (r : range) | RValue (v : value).
Definition range_list := list range_list_item.

(** ast.rs:253-260 [Operand] *)
Inductive operand := ON | OI | OV | OW | OF | OT.

(** ast.rs:210-213 [Expression], ast.rs:233 [Modulo] *)
Record expression := mkExpr { ex_operand : operand; ex_modulus : option value }.

(** ast.rs:177-186 [Operator] *)
Inductive operator := OpIn | OpNotIn | OpWithin | OpNotWithin | OpIs | OpIsNot | OpEQ | OpNotEQ.

(** ast.rs:155-159 [Relation] *)
Record relation := mkRel { rel_expr : expression; rel_op : operator; rel_list : range_list }.

(** ast.rs:127 [AndCondition], ast.rs:89 [Condition] *)
Definition and_condition := list relation.
Definition condition := list and_condition.

(** ast.rs:26-29 [DecimalValue] *)
Record decimal_value := mkDec { dv_integer : value; dv_decimal : option value }.
(** ast.rs:20-23 [SampleRange] *)
Record sample_range := mkSR { sr_lower : decimal_value; sr_upper : option decimal_value }.
(** ast.rs:14-17 [SampleList] *)
Record sample_list := mkSL { sl_ranges : list sample_range; sl_ellipsis : bool }.
(** ast.rs:8-11 [Samples] *)
Record samples := mkSamples { sa_integer : option sample_list; sa_decimal : option sample_list }.
(** ast.rs:2-5 [Rule] *)
Record rule := mkRule { ru_condition : condition; ru_samples : option samples }.
