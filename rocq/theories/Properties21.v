(** * Property C106: where the order of the tests matters; C06 made exact *)
From Coq Require Import Permutation.
From Verif Require Import Base Operands Ast LangId GenRs RustExpr PluralRules Tables Cldr Spec SpecR ApiProps InputSpec Conformance DigitFacts OperandsFacts IntExact Order.
Open Scope N_scope.

(** C106 *)
Theorem C106_order how id t pr : create how id t = Ok pr ->
  (forall x d arms, ordinary x d -> Permutation arms (b_arms (pr_function pr)) -> select W64 (reordered pr arms) x = select W64 pr x) <->
  ~ (t = CARDINAL /\ In id (List.map lang ["lt"; "lv"; "prg"]%string)).
Proof. exact (C106_exact how id t pr). Qed.
Print Assumptions C106_order.
(** for integers the order never matters *)
Theorem C106_integers how id t pr x d arms : create how id t = Ok pr -> ordinary x d -> uts_f d = 0 ->
  Permutation arms (b_arms (pr_function pr)) -> select W64 (reordered pr arms) x = select W64 pr x.
Proof.
  intros C O F. apply (C106_lemma how id t pr x d arms C O). left. unfold integral. now rewrite F.
Qed.
Print Assumptions C106_integers.
(** at most one test of a function succeeds *)
Theorem C106_one_test how id t pr x d po e1 c1 e2 c2 : create how id t = Ok pr -> ordinary x d -> converted W64 x = Ok po ->
  uts_f d = 0 \/ ~ (t = CARDINAL /\ In id (List.map lang ["lt"; "lv"; "prg"]%string)) ->
  In (e1, c1) (b_arms (pr_function pr)) -> In (e2, c2) (b_arms (pr_function pr)) ->
  eval e1 po = Ok true -> eval e2 po = Ok true -> c1 = c2.
Proof. exact (C106_one how id t pr x d po e1 c1 e2 c2). Qed.
Print Assumptions C106_one_test.
(** the number has to be one that is read exactly: 4.9999999999999999999 is rounded to 5 for [n] and keeps the integer part 4 *)
Theorem C106_long_numbers_differ : exists pr, create Halving (lang "kw") ORDINAL = Ok pr /\
  select W64 pr (InStr (bs "4.9999999999999999999")) = Ok MANY /\
  select W64 (reordered pr (rev (b_arms (pr_function pr)))) (InStr (bs "4.9999999999999999999")) = Ok ONE.
Proof. eexists. split; [vm_compute; reflexivity|]. split; vm_compute; reflexivity. Qed.
Print Assumptions C106_long_numbers_differ.
(** Arabic has five tests; the reversed function gives the same categories.  Lithuanian 1.1 is MANY, or ONE with the tests reversed *)
Example C106_case :
  (exists pr, create Halving (lang "ar") CARDINAL = Ok pr /\ List.length (b_arms (pr_function pr)) = 5%nat /\
    List.map (fun s => select W64 (reordered pr (rev (b_arms (pr_function pr)))) (InStr (bs s))) ["0"; "1"; "2"; "3"; "11"; "100"; "1.5"]%string =
    [Ok ZERO; Ok ONE; Ok TWO; Ok FEW; Ok MANY; Ok OTHER; Ok OTHER]) /\
  (exists pr, create Halving (lang "lt") CARDINAL = Ok pr /\ ordinary (InStr (bs "1.1")) (mkDecimal 1 [1]) /\
    select W64 pr (InStr (bs "1.1")) = Ok MANY /\
    select W64 (reordered pr (rev (b_arms (pr_function pr)))) (InStr (bs "1.1")) = Ok ONE).
Proof.
  split.
  - eexists. split; [vm_compute; reflexivity|]. split; vm_compute; reflexivity.
  - eexists. split; [vm_compute; reflexivity|]. split; [constructor; exact (tenth_plain 1 (or_intror eq_refl))|]. split; vm_compute; reflexivity.
Qed.

(** C06, made exact: i is right for the values with at most 53 significant bits, and for 2^64 - 1, where the conversion saturates *)
Theorem C06_exactly sg i : minus_opt sg -> digits i -> i <> [] -> dval i < 2 ^ 64 ->
  exists n k, operands_from_str (sg ++ i) = Ok (mkOps n k 0 0 0 0) /\
    (k = dval i <-> (exists m e, dval i = m * 2 ^ e /\ m < 2 ^ 53) \/ dval i = 2 ^ 64 - 1).
Proof. exact (C06_exactly_lemma sg i). Qed.
Print Assumptions C06_exactly.
Example C06_exactly_case :
  List.map (fun s => match operands_from_str (bs s) with Ok po => op_i po | _ => 0 end)
    ["9007199254740993"; "9007199254740994"; "18446744073709551614"; "18446744073709551615"]%string =
    [9007199254740992; 9007199254740994; 18446744073709551615; 18446744073709551615] /\
  9007199254740994 = 4503599627370497 * 2 ^ 1.
Proof. split; vm_compute; reflexivity. Qed.
