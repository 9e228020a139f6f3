(** * Property C123: exactly which [within] relations are generated faithfully *)
From Coq Require Import Lia.
From Verif Require Import Base Operands Ast Tokens GenPr RustExpr Spec CodeSpec Conformance Faithful WithinFaithful.
From Verif Require Properties3.
Open Scope N_scope.

(** C123.  The generated code is right for all numerals, or for all integers, exactly
    if the criterion holds *)
Theorem C123_relations r rg : a_within (rel_op r) -> on_value r -> first_range (rel_list r) = Some rg -> moderate r ->
  exists ts e, gen_pr [[r]] = Ok ts /\ read_bexpr ts = Some e /\
    ((forall s d po, numeral s d -> small d -> operands_from_str s = Ok po -> eval e po = Ok (uts_relation r d)) <-> within_right r rg) /\
    ((forall x, x < 2 ^ 53 -> eval e (operands_from_unsigned x) = Ok (uts_relation r (mkDecimal x []))) <-> within_right_int r rg).
Proof. exact (C123_lemma r rg). Qed.
Print Assumptions C123_relations.
(** [within] without modulus: everything listed lies in the first range *)
Theorem C123_plain r rg : first_range (rel_list r) = Some rg -> rel_op r = OpWithin -> ex_modulus (rel_expr r) = None ->
  (within_right r rg <-> forall it x, In it (rel_list r) -> covers it x -> covers (RRange rg) x).
Proof. exact (within_plain_lemma r rg). Qed.
Print Assumptions C123_plain.
(** [not within] without modulus: never, not even for integers *)
Theorem C123_not_within r rg : moderate r -> first_range (rel_list r) = Some rg -> rel_op r = OpNotWithin ->
  ex_modulus (rel_expr r) = None -> ~ within_right_int r rg.
Proof. exact (not_within_never r rg). Qed.
Print Assumptions C123_not_within.
(** [n % m within a..b]: the range is empty, out of reach, or reaches up to [m] *)
Theorem C123_modulus m rg : 0 < m ->
  (within_right (mkRel (mkExpr ON (Some m)) OpWithin [RRange rg]) rg <-> upper_val rg < lower_val rg \/ m <= lower_val rg \/ m <= upper_val rg).
Proof. exact (within_n_mod_lemma m rg). Qed.
Print Assumptions C123_modulus.
(** [x % m not within a..b]: the range has all remainders *)
Theorem C123_not_modulus o m rg : 0 < m ->
  (within_right_int (mkRel (mkExpr o (Some m)) OpNotWithin [RRange rg]) rg <-> lower_val rg = 0 /\ m <= upper_val rg + 1).
Proof. exact (not_within_mod_lemma o m rg). Qed.
Print Assumptions C123_not_modulus.
(** The other operands, for numerals of any length *)
Theorem C123_others r rg : a_within (rel_op r) -> on_digits r -> first_range (rel_list r) = Some rg -> moderate r ->
  exists ts e, gen_pr [[r]] = Ok ts /\ read_bexpr ts = Some e /\
    ((forall s d po, numeral s d -> operands_from_str s = Ok po -> eval e po = Ok (uts_relation r d)) <-> within_right_other r rg).
Proof. exact (C123_other_lemma r rg). Qed.
Print Assumptions C123_others.
(** with a modulus the range must have no remainder or all of them *)
Theorem C123_others_modulus o m rg : o = OV \/ o = OW \/ o = OF -> 0 < m ->
  (within_right_other (mkRel (mkExpr o (Some m)) OpWithin [RRange rg]) rg <->
   upper_val rg < lower_val rg \/ m <= lower_val rg \/ lower_val rg = 0 /\ m <= upper_val rg + 1).
Proof. exact (within_other_mod_lemma o m rg). Qed.
Print Assumptions C123_others_modulus.
Theorem C123_others_not_within r rg : on_digits r -> moderate r -> first_range (rel_list r) = Some rg -> rel_op r = OpNotWithin ->
  ex_modulus (rel_expr r) = None -> ~ within_right_other r rg.
Proof. exact (not_within_other_never r rg). Qed.
Print Assumptions C123_others_not_within.
(** "n within 2..6,3,4..5" is right; "n within 3,2..6,8" is wrong for 8, "n not within 2..6"
    for 7; "n % 10 within 2..6" is right for integers but not for 6.5 *)
Definition rel (s : string) : relation := List.hd (mkRel (mkExpr ON None) OpIn []) (List.hd [] (Properties3.cond_of s)).
Definition value (s : string) (x : bytes) : option bool :=
  match gen_pr [[rel s]] with
  | Ok ts => match read_bexpr ts, operands_from_str x with
             | Some e, Ok po => match eval e po with Ok b => Some b | _ => None end
             | _, _ => None
             end
  | _ => None
  end.
Example C123_case :
  a_within (rel_op (rel "n within 2..6,3,4..5")) /\ on_value (rel "n within 2..6,3,4..5") /\
  first_range (rel_list (rel "n within 2..6,3,4..5")) = Some (mkRange 2 6) /\ moderate (rel "n within 2..6,3,4..5") /\
  within_right (rel "n within 2..6,3,4..5") (mkRange 2 6) /\
  value "n within 2..6,3,4..5" (bs "5.5") = Some true /\
  first_range (rel_list (rel "n within 3,2..6,8")) = Some (mkRange 2 6) /\
  value "n within 3,2..6,8" (bs "8") = Some false /\ uts_relation (rel "n within 3,2..6,8") (mkDecimal 8 []) = true /\
  value "n not within 2..6" (bs "7") = Some false /\ uts_relation (rel "n not within 2..6") (mkDecimal 7 []) = true /\
  rel "n % 10 within 2..6" = mkRel (mkExpr ON (Some 10)) OpWithin [RRange (mkRange 2 6)] /\
  value "n % 10 within 2..6" (bs "6.5") = Some true /\ uts_relation (rel "n % 10 within 2..6") (mkDecimal 6 [5]) = false.
Proof.
  assert (E : rel "n within 2..6,3,4..5" = mkRel (mkExpr ON None) OpWithin [RRange (mkRange 2 6); RValue 3; RRange (mkRange 4 5)])
    by (vm_compute; reflexivity).
  rewrite E. split; [now left|]. split; [now left|]. split; [reflexivity|]. split.
  { split; [exact Logic.I|]. repeat constructor. }
  split.
  { apply C123_plain; try reflexivity. intros it x I C. cbn [rel_list] in I. destruct I as [<- |[<- |[<- |[]]]]; cbn [covers lower_val upper_val] in *; lia. }
  repeat (split; [vm_compute; reflexivity|]). vm_compute; reflexivity.
Qed.
(** "f % 10 within 2..6" looks at i: wrong for 0.3; "t within 1..6,3,10" is right, as t is never 10 *)
Example C123_others_case :
  let r := rel "t within 1..6,3,10" in
  a_within (rel_op r) /\ on_digits r /\ first_range (rel_list r) = Some (mkRange 1 6) /\ moderate r /\ within_right_other r (mkRange 1 6) /\
  rel "f % 10 within 2..6" = mkRel (mkExpr OF (Some 10)) OpWithin [RRange (mkRange 2 6)] /\
  value "f % 10 within 2..6" (bs "0.3") = Some false /\ uts_relation (rel "f % 10 within 2..6") (mkDecimal 0 [3]) = true /\
  value "f not within 2..6" (bs "0.7") = Some false /\ uts_relation (rel "f not within 2..6") (mkDecimal 0 [7]) = true.
Proof.
  assert (E : rel "t within 1..6,3,10" = mkRel (mkExpr OT None) OpWithin [RRange (mkRange 1 6); RValue 3; RValue 10])
    by (vm_compute; reflexivity).
  cbv zeta. rewrite E. split; [now left|]. split; [easy|]. split; [reflexivity|]. split.
  { split; [exact Logic.I|]. repeat constructor. }
  split.
  { intros x y P. cbn [rel_expr rel_op rel_list ex_operand ex_modulus possible reduced tested wanted lower_val upper_val] in *. split.
    - intro C. exists (RRange (mkRange 1 6)). split; [now left|exact C].
    - intros (it & [<- |[<- |[<- |[]]]] & C); cbn [covers lower_val upper_val] in C; [exact C|lia|].
      subst y. destruct P as [P|P]; [discriminate|]. now elim P. }
  repeat (split; [vm_compute; reflexivity|]). vm_compute; reflexivity.
Qed.
