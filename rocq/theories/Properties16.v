(** * Properties C93-C94: the shipped functions, for every operand set

    [code_select] is of CodeSpec.v, [looks_at] and [same] of LookSpec.v. *)
From Coq Require Import Floats.SpecFloat.
From Verif Require Import Base F64 Ast Operands LangId GenRs PluralRules Tables Json Cldr Spec ApiProps InputSpec CodeSpec Conformance LookSpec CodeShipped.
Open Scope N_scope.

(** C93 *)
Theorem C93_select_is_code how id t pr : create how id t = Ok pr ->
  exists rules, In (id, rules) (cldr t) /\ (forall rules', In (id, rules') (cldr t) -> rules' = rules) /\
    forall w x po, converted w x = Ok po -> select w pr x = Ok (code_select rules po).
Proof. exact (C93_lemma how id t pr). Qed.
Print Assumptions C93_select_is_code.
(** Arabic: NaN is OTHER; hand-made operands with n = 0 and i = 2 are ZERO, with n = NaN and i = 105 OTHER (3..10 is tried without the
    modulus) and with i = 5 FEW *)
Example C93_case : exists pr, create Halving (lang "ar") CARDINAL = Ok pr /\
  (exists po, converted W64 (InF64 S754_nan) = Ok po) /\
  select W64 pr (InOps (mkOps (S754_zero true) 2 3 2 1 7)) = Ok ZERO /\
  select W64 pr (InOps (mkOps S754_nan 105 3 2 1 7)) = Ok OTHER /\
  select W64 pr (InOps (mkOps S754_nan 5 3 2 1 7)) = Ok FEW.
Proof.
  eexists. split; [vm_compute; reflexivity|]. split; [eexists; vm_compute; reflexivity|].
  repeat split; vm_compute; reflexivity.
Qed.

(** C94 *)
Theorem C94_only_these how id t pr w a b : create how id t = Ok pr -> (forall o, In o (looks_at t id) -> same o a b) ->
  select w pr (InOps a) = select w pr (InOps b).
Proof. exact (C94_same how id t pr w a b). Qed.
Print Assumptions C94_only_these.
Theorem C94_each_matters how id t pr w o : create how id t = Ok pr -> In o (looks_at t id) ->
  exists a b, (forall o', o' <> o -> same o' a b) /\ select w pr (InOps a) <> select w pr (InOps b).
Proof. exact (C94_matters how id t pr w o). Qed.
Print Assumptions C94_each_matters.
Example C94_case : exists pr, create Halving (lang "da") CARDINAL = Ok pr /\ looks_at CARDINAL (lang "da") = [ON; OI; OT] /\
  select W64 pr (InOps (mkOps S754_nan 0 1 2 3 4)) = Ok ONE /\ select W64 pr (InOps (mkOps S754_nan 0 5 6 7 4)) = Ok ONE /\
  select W64 pr (InOps (mkOps S754_nan 0 1 2 3 0)) = Ok OTHER.
Proof. eexists. repeat (split; [vm_compute; reflexivity|]). vm_compute; reflexivity. Qed.
