(** * Property C124: rules whose relations are all generated faithfully *)
From Coq Require Import Lia.
From Verif Require Import Base Ast CldrParser Operands LangId Tokens GenPr GenRs Json JsonSpec MakeRules RustExpr Spec PluralRules Cldr CodeSpec
  FileSpec MakeFacts MakeBody Pipeline Faithful WithinFaithful RightRules.
From Verif Require Properties3 Properties6.
Open Scope N_scope.

(** C124.  A condition whose relations are right one by one (by the criteria of C103 and C123)
    is right *)
Theorem C124_condition ai c : condition_right ai c ->
  exists ts e, gen_pr c = Ok ts /\ read_bexpr ts = Some e /\
    (forall s d, numeral s d -> small d -> (ai = true -> integral d = true) ->
       exists po, operands_from_str s = Ok po /\ eval e po = Ok (uts_condition c d)) /\
    (forall x, x < 2 ^ 64 -> eval e (operands_from_unsigned x) = Ok (uts_condition c (mkDecimal x []))).
Proof. exact (C124_condition_lemma ai c). Qed.
Print Assumptions C124_condition.
(** and a library regenerated from such conditions follows its data for every input type *)
Theorem C124_library {ptr : ptr_width} srt jsons out rs t r d ai : sorts srt -> generate_rs srt jsons = Ok out -> inputs_are jsons rs ->
  In r rs -> data_of t r = Some d -> plain_distinct d ->
  (forall key id cs, input_locale d key id cs -> li_language id <> None /\ rules_right ai cs) ->
  exists tbl, output_table t out = Some tbl /\ forall how,
    (forall id, (exists pr, create_in how tbl id = Ok pr) <-> exists key id0 cs, input_locale d key id0 cs /\ id = drop_variants id0) /\
    forall key id cs, input_locale d key id cs ->
    exists pr, create_in how tbl (drop_variants id) = Ok pr /\ get_locale pr = drop_variants id /\
      forall w, follows ai w pr cs.
Proof. exact (C124_library_lemma srt jsons out rs t r d ai). Qed.
Print Assumptions C124_library.
(** A range after "n % 5" helped by "v = 0", and a [within]: neither is covered by C45 *)
Definition text : bytes := bs "v = 0 and n % 5 = 1,2,3,11..13 or n within 7..9,8".
Definition tree : condition :=
  [[mkRel (mkExpr OV None) OpEQ [RValue 0]; mkRel (mkExpr ON (Some 5)) OpEQ [RValue 1; RValue 2; RValue 3; RRange (mkRange 11 13)]];
   [mkRel (mkExpr ON None) OpWithin [RRange (mkRange 7 9); RValue 8]]].
Definition json : bytes := Properties6.resource "37" "cardinal"
  """xx"":{""pluralRule-count-few"":""v = 0 and n % 5 = 1,2,3,11..13 or n within 7..9,8""},""root"":{""pluralRule-count-other"":""""}".
Lemma tree_right : condition_right false tree.
Proof.
  split; [discriminate|]. constructor; [|constructor; [|constructor]].
  - split; [discriminate|]. exists true. split.
    + intros _. right. eexists. split; [now left|]. split; [reflexivity|]. split; [split; [exact Logic.I|repeat constructor]|]. split; [discriminate|exact Logic.I].
    + constructor; [|constructor; [|constructor]]; (split; [split; [easy|repeat constructor]|]; split; [discriminate|]).
      * exact Logic.I.
      * apply faithful_intb_iff. vm_compute. reflexivity.
  - split; [discriminate|]. exists false. split; [discriminate|]. constructor; [|constructor].
    split; [split; [easy|repeat constructor]|]. split; [discriminate|]. exists (mkRange 7 9). split; [reflexivity|].
    cbn [rel_expr ex_operand]. apply within_plain_lemma; try reflexivity.
    intros it x [<- |[<- |[]]] C; cbn [covers lower_val upper_val] in *; lia.
Qed.
Example C124_case :
  parse_plural_condition text = Ok tree /\ condition_right false tree /\ supported true tree = false /\
  (exists r d, In r (Properties6.reads [json]) /\ data_of CARDINAL r = Some d /\ plain_distinct d /\
     forall key id cs, input_locale d key id cs -> li_language id <> None /\ rules_right false cs) /\
  match output_table CARDINAL (Properties6.output [json]) with
  | Some tbl => match create_in LeftRight tbl (mkLang (Some (bs "xx")) None None None) with
                | Ok pr => select W32 pr (InUnsigned 16) = Ok FEW /\ select W32 pr (InStr (bs "16.5")) = Ok OTHER /\
                           select W32 pr (InStr (bs "8.5")) = Ok FEW /\ select W32 pr (InStr (bs "9.5")) = Ok OTHER
                | _ => False end
  | None => False
  end.
Proof.
  assert (P : parse_plural_condition text = Ok tree) by (vm_compute; reflexivity).
  split; [exact P|]. split; [exact tree_right|]. split; [vm_compute; reflexivity|]. split; [|vm_compute; repeat split].
  assert (R : exists r, Properties6.reads [json] = [r]) by (vm_compute; eexists; reflexivity). destruct R as (r & R).
  exists r, [(bs "root", [(bs "pluralRule-count-other", [])]); (bs "xx", [(bs "pluralRule-count-few", text)])]. rewrite R. split; [now left|].
  split; [vm_compute in R; injection R as <-; reflexivity|]. split.
  - intros ids F. vm_compute in F. inversion F as [|? i1 ? l1 X1 F1]; subst. inversion F1; subst. repeat constructor. intros [].
  - intros key id cs (NR & L & rules & I & F). destruct I as [E|[E|[]]]; injection E as <- <-; [now contradiction NR|].
    inversion F as [|? [k co'] ? l1 X1 F1]; subst. inversion F1; subst.
    apply rule_reads_iff in X1 as (p & P1 & P2 & P3). cbn [fst snd] in *. rewrite P in P3. injection P3 as <-.
    split; [vm_compute in L; injection L as <-; discriminate|].
    intros c co [E|[]] _. injection E as <- <-. exact tree_right.
Qed.
