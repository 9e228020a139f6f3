(** * Properties C91-C92: what the generated code tests

    [code_condition], [code_fits] and [code_select] (CodeSpec.v) are written from
    the condition alone. *)
From Coq Require Import Floats.SpecFloat.
From Verif Require Import Base F64 Ast CldrParser Operands LangId GenPr GenRs Json JsonSpec MakeRules RustExpr Spec Grammar ParserProps
  FileSpec CodeSpec CodeProps MakeBody MakeProps CodeMore.
From Verif Require Properties3 Properties6.
Open Scope N_scope.

(** C91 *)
Theorem C91_generated_code c : no_gaps c -> lacks_ranges c = false ->
  exists ts e, gen_pr c = Ok ts /\ read_bexpr ts = Some e /\ compiles e = code_fits c /\
    (code_fits c = true -> forall po, eval e po = Ok (code_condition c po)).
Proof. exact (C91_lemma c). Qed.
Print Assumptions C91_generated_code.
Theorem C91_no_range c : lacks_ranges c = true -> gen_pr c = Panic "index out of bounds".
Proof. exact (gen_lack c). Qed.
Print Assumptions C91_no_range.
Theorem C91_empty_list c : lacks_ranges c = false -> exists ts, gen_pr c = Ok ts /\ (~ no_gaps c -> read_bexpr ts = None).
Proof. exact (gen_no_lack c). Qed.
Print Assumptions C91_empty_list.
Example C91_gaps_case :
  (exists c, parse_plural_condition (bs "n = 1 or i within 5") = Ok c /\ lacks_ranges c = true /\ gen_pr c = Panic "index out of bounds") /\
  (exists c ts, parse_plural_condition (bs "n = 1 or i = ") = Ok c /\ lacks_ranges c = false /\ ~ no_gaps c /\
     gen_pr c = Ok ts /\ read_bexpr ts = None).
Proof.
  split; [eexists; split; [vm_compute; reflexivity|split; vm_compute; reflexivity]|].
  eexists. eexists. split; [vm_compute; reflexivity|]. split; [vm_compute; reflexivity|].
  split; [|split; vm_compute; reflexivity]. intros [_ H]. vm_compute in H. apply Forall_inv_tail, Forall_inv in H as [_ H]. now apply Forall_inv in H.
Qed.
(** of a parsed condition, only a modulus 0 can fail to compile *)
Theorem C91_parsed {ptr : ptr_width} s c : parse_plural_condition s = Ok c -> lacks_ranges c = false ->
  code_fits c = negb (existsb (existsb zero_modulus) c).
Proof. exact (fun H => parsed_fits c (proj1 (condition_fits_parsed s c H))). Qed.
Print Assumptions C91_parsed.
Example C91_parsed_case : exists c, parse_plural_condition (bs "i % 0 = 1 or n = 18446744073709551615") = Ok c /\
  lacks_ranges c = false /\ existsb (existsb zero_modulus) c = true /\ code_fits c = false.
Proof. eexists. split; [vm_compute; reflexivity|]. split; [reflexivity|]. split; vm_compute; reflexivity. Qed.
(** "n != 3..5" is false of 1.5; "n % 100 = 3..10" is false of 103; a modulus after [within] is taken of [i];
    "n = " gives no expression; "n % 0 = 1" does not compile but "n % 0 = 1..2" does *)
Example C91_case :
  let c := Properties3.cond_of "n = 1,3..5 and i % 10 != 2 or n != 3..5 or f % 10 within 2..3 or n % 100 = 3..10" in
  no_gaps c /\ lacks_ranges c = false /\ code_fits c = true /\
  (exists po, operands_from_str (bs "1.5") = Ok po /\ code_condition c po = false /\ uts_condition c (mkDecimal 1 [5]) = true) /\
  (exists po, operands_from_str (bs "12.50") = Ok po /\ code_condition c po = true) /\
  code_condition (Properties3.cond_of "n % 100 = 3..10") (operands_from_unsigned 103) = false /\
  (exists po, operands_from_str (bs "12.50") = Ok po /\
     code_condition (Properties3.cond_of "f % 10 within 2..3") po = true /\ uts_condition (Properties3.cond_of "f % 10 within 2..3") (mkDecimal 12 [5; 0]) = false) /\
  code_fits (Properties3.cond_of "n % 0 = 1") = false /\ code_fits (Properties3.cond_of "n % 0 = 1..2") = true /\
  Properties3.cond_of "n = " = [[mkRel (mkExpr ON None) OpEQ []]].
Proof.
  split. { split; [vm_compute; discriminate|]. vm_compute. repeat constructor; discriminate. }
  split; [vm_compute; reflexivity|]. split; [vm_compute; reflexivity|].
  split. { eexists. split; [vm_compute; reflexivity|]. split; vm_compute; reflexivity. }
  split. { eexists. split; [vm_compute; reflexivity|]. vm_compute; reflexivity. }
  split; [vm_compute; reflexivity|].
  split. { eexists. split; [vm_compute; reflexivity|]. split; vm_compute; reflexivity. }
  split; [vm_compute; reflexivity|]. split; vm_compute; reflexivity.
Qed.

(** C92 *)
Theorem C92_generated_function {ptr : ptr_width} srt jsons out rs t r d :
  sorts srt -> generate_rs srt jsons = Ok out -> inputs_are jsons rs -> In r rs -> data_of t r = Some d ->
  (forall key id cs, input_locale d key id cs -> li_language id <> None /\ forall c co, In (c, co) cs -> c <> OTHER -> no_gaps co) ->
  exists tbl, output_table t out = Some tbl /\
    forall key id cs, input_locale d key id cs ->
    exists b, In (drop_variants id, b) tbl /\
      body_compiles b = forallb (fun cc => code_fits (snd cc)) (List.filter not_other cs) /\
      (body_compiles b = true -> forall po, eval_body b po = Ok (code_select cs po)).
Proof. exact (C92_lemma srt jsons out rs t r d). Qed.
Print Assumptions C92_generated_function.
Theorem C92_no_empty_list {ptr : ptr_width} srt jsons out rs t r d tbl key id cs c co :
  sorts srt -> generate_rs srt jsons = Ok out -> inputs_are jsons rs -> In r rs -> data_of t r = Some d ->
  output_table t out = Some tbl -> input_locale d key id cs -> In (c, co) cs -> c <> OTHER -> no_gaps co.
Proof. exact (C92_gaps srt jsons out rs t r d tbl key id cs c co). Qed.
Print Assumptions C92_no_empty_list.
(** the first rule that succeeds wins, in the order of the keys, wherever OTHER stands *)
Definition overlap : bytes := Properties6.resource "37" "cardinal"
  """sv"":{""pluralRule-count-two"":""n != 3..5"",""pluralRule-count-other"":""n = 1"",""pluralRule-count-one"":""n = 0..9""}".
Example C92_case :
  let cs := [(ONE, Properties3.cond_of "n = 0..9"); (OTHER, Properties3.cond_of "n = 1"); (TWO, Properties3.cond_of "n != 3..5")] in
  code_select cs (operands_from_unsigned 1) = ONE /\ code_select cs (operands_from_unsigned 12) = TWO /\
  (exists po, operands_from_str (bs "1.5") = Ok po /\ code_select cs po = OTHER) /\
  match output_table CARDINAL (Properties6.output [overlap]) with
  | Some [(id, b)] => body_compiles b = true /\ eval_body b (operands_from_unsigned 1) = Ok ONE /\ eval_body b (operands_from_unsigned 12) = Ok TWO
  | _ => False
  end.
Proof.
  split; [vm_compute; reflexivity|]. split; [vm_compute; reflexivity|].
  split. { eexists. split; vm_compute; reflexivity. }
  vm_compute. repeat split; reflexivity.
Qed.
