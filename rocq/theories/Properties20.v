(** * Properties C103-C105: exactly which relations are generated faithfully; the
    text of a generated file *)
From Verif Require Import Base Ast LangId Tokens GenPr GenRs Json MakeRules RustExpr PluralRules Tables Cldr Operands Spec FileSpec MakeFacts
  Conformance ConformanceProps Faithful Frame SplitFloats.
From Verif Require Import TextRules TextCardinals37 TextOrdinals37.
From Verif Require Properties3 Properties6.
Open Scope N_scope.

(** C103 *)
Theorem C103_relations r : membership (rel_op r) -> rel_list r <> [] -> moderate r ->
  exists ts e, gen_pr [[r]] = Ok ts /\ read_bexpr ts = Some e /\
    ((forall s d po, numeral s d -> small d -> operands_from_str s = Ok po -> eval e po = Ok (uts_relation r d)) <-> faithful r) /\
    ((forall x, x < 2 ^ 53 -> eval e (operands_from_unsigned x) = Ok (uts_relation r (mkDecimal x []))) <-> faithful_on_integers r).
Proof. exact (C103_lemma r). Qed.
Print Assumptions C103_relations.
(** the locales of the tables that are wrong for integers are those with such a
    relation *)
Theorem C103_locales t id rules : In (id, rules) (cldr t) ->
  ((exists s d pr c, numeral s d /\ small d /\ integral d = true /\ create Halving id t = Ok pr /\
      select W64 pr (InStr s) = Ok c /\ ~ cldr_select rules d c) <->
   exists r, relation_of rules r /\ ~ faithful_on_integers r).
Proof. exact (C103_locales_lemma t id rules). Qed.
Print Assumptions C103_locales.
(** and those wrong for any numeral, but for two locales *)
Theorem C103_locales_fractions t id rules : In (id, rules) (cldr t) -> ~ In id (guarded t) ->
  ((exists s d pr c, numeral s d /\ small d /\ create Halving id t = Ok pr /\
      select W64 pr (InStr s) = Ok c /\ ~ cldr_select rules d c) <->
   exists r, relation_of rules r /\ ~ faithful r).
Proof. exact (C103_fractions_lemma t id rules). Qed.
Print Assumptions C103_locales_fractions.
(** "n % 100 = 3,11" is right for integers only, "n % 100 = 3..10" not even for these,
    "n % 5 = 1,2,3,11..13" is right for integers although it has a range *)
Definition rel (s : string) : relation := List.hd (mkRel (mkExpr ON None) OpIn []) (List.hd [] (Properties3.cond_of s)).
Example C103_case :
  List.map (fun s => (faithfulb (rel s), faithful_intb (rel s)))
    ["i % 100 = 3..10"; "n != 3"; "n = 3..10"; "n != 3..10"; "n % 100 = 3,11"; "n % 100 = 3..10"; "n % 5 = 1,2,3,11..13"; "n % 5 = 7"]%string =
  [(true, true); (true, true); (true, true); (false, true); (false, true); (false, false); (false, true); (true, true)] /\
  membership (rel_op (rel "n % 5 = 1,2,3,11..13")) /\ rel_list (rel "n % 5 = 1,2,3,11..13") <> [] /\ moderate (rel "n % 5 = 1,2,3,11..13") /\
  faithful_on_integers (rel "n % 5 = 1,2,3,11..13") /\ ~ faithful (rel "n % 5 = 1,2,3,11..13") /\
  (exists rules, find_rules CARDINAL (lang "lt") = Some rules /\ relation_of rules (rel "n % 100 != 11..19")) /\
  ~ faithful_on_integers (rel "n % 100 != 11..19").
Proof.
  split; [vm_compute; reflexivity|]. split; [split; vm_compute; discriminate|]. split; [vm_compute; discriminate|].
  split.
  { split; [vm_compute; split; reflexivity|].
    let l := eval vm_compute in (rel_list (rel "n % 5 = 1,2,3,11..13")) in change (rel_list (rel "n % 5 = 1,2,3,11..13")) with l.
    repeat (apply Forall_cons; [vm_compute; first [reflexivity|split; reflexivity]|]). apply Forall_nil. }
  split; [apply faithful_intb_iff; vm_compute; reflexivity|].
  split; [rewrite <- faithfulb_iff; vm_compute; discriminate|].
  split; [|rewrite <- faithful_intb_iff; vm_compute; discriminate].
  eexists. split; [vm_compute; reflexivity|].
  exists ONE, (Properties3.cond_of "n % 10 = 1 and n % 100 != 11..19"), (List.hd [] (Properties3.cond_of "n % 10 = 1 and n % 100 != 11..19")).
  split; [vm_compute; tauto|]. split; [vm_compute; tauto|]. vm_compute. tauto.
Qed.

(** C104 *)
Theorem C104_text {ptr : ptr_width} srt jsons rs out : inputs_are jsons rs -> generate_rs srt jsons = Ok out ->
  exists v z c o, Forall (fun r => version_of r = v) rs /\ version_number v z /\ table_of CARDINAL rs c /\ table_of ORDINAL rs o /\
    out = before_version ++ dec_of_N (Z.to_N (z mod 2 ^ 64)) ++ after_version ++ c ++ o.
Proof. exact (C104_lemma srt jsons rs out). Qed.
Print Assumptions C104_text.
Theorem C104_printable {ptr : ptr_width} srt jsons out : generate_rs srt jsons = Ok out -> printable out.
Proof. exact (Frame.C104_printable srt jsons out). Qed.
Print Assumptions C104_printable.
(** the resource has a locale key and a unicode version that are not ASCII or printable; the file only ordinals *)
Example C104_case :
  let j := bs "{""supplemental"":{""version"":{""_unicodeVersion"":""é"",""_cldrVersion"":""+7""},""plurals-type-ordinal"":{""sv"":{""pluralRule-count-one"":""n = 1 @integer 1, …""}}}}" in
  exists rs out, inputs_are [j] rs /\ generate_rs insertion_sort [j] = Ok out /\
    out = before_version ++ bs "7" ++ after_version ++
      table_text "PRS_ORDINAL" (bs "(langid ! (subtags :: Language :: from_raw_unchecked (30323u64) , None , None) , | po | { if (po . n == 1 . 0) { PluralCategory :: ONE } else { PluralCategory :: OTHER } })").
Proof.
  cbv zeta. do 2 eexists. split; [apply Properties6.reads_ok; vm_compute; reflexivity|]. split; vm_compute; reflexivity.
Qed.

(** C105 *)
Theorem C105_conditions c ts : gen_pr c = Ok ts -> (split_float ts <-> exists a r, In a c /\ In r a /\ needs_float r = true).
Proof. exact (C105_condition c ts). Qed.
Print Assumptions C105_conditions.
Theorem C105_files {ptr : ptr_width} srt jsons rs out : sorts srt -> inputs_are jsons rs -> generate_rs srt jsons = Ok out ->
  exists ts, lex out = Some ts /\
    (split_float ts <-> exists t r d key id cs c co a rel, In r rs /\ data_of t r = Some d /\ input_locale d key id cs /\
       In (c, co) cs /\ c <> OTHER /\ In a co /\ In rel a /\ needs_float rel = true).
Proof.
  intros S I G. destruct (C105_lemma srt jsons rs out S I G) as (ts & L & E). exists ts. split; [exact L|]. rewrite E. split.
  - intros (t & r & d & R & D & key & id & cs & c & co & a & rel & H). exists t, r, d, key, id, cs, c, co, a, rel. tauto.
  - intros (t & r & d & key & id & cs & c & co & a & rel & R & D & H). exists t, r, d. split; [exact R|]. split; [exact D|].
    exists key, id, cs, c, co, a, rel. exact H.
Qed.
Print Assumptions C105_files.
(** the unformatted output for the shipped data against the formatted rules.rs *)
Theorem C105_shipped {ptr : ptr_width} srt : sorts srt ->
  (exists out ts, generate_rs srt [cardinals37_json; ordinals37_json] = Ok out /\ lex out = Some ts /\ split_float ts) /\
  exists ts, lex rules_rs = Some ts /\ ~ split_float ts.
Proof. exact (C105_shipped_lemma srt). Qed.
Print Assumptions C105_shipped.
(** "n = 1" is affected, "n = 2..4", "n % 10 = 1" and "i = 1" are not *)
Example C105_case :
  List.map (fun s => needs_float (rel s)) ["n = 1"; "n within 2..4"; "n = 2..4,7"; "n = 2..4"; "n % 10 = 1"; "i = 1"]%string =
    [true; true; true; false; false; false] /\
  (exists ts, gen_pr (Properties3.cond_of "v = 0 and n != 3,5") = Ok ts /\ split_float ts) /\
  exists ts, gen_pr (Properties3.cond_of "n != 3..5 or n % 10 = 2") = Ok ts /\ ~ split_float ts.
Proof.
  split; [vm_compute; reflexivity|]. split; eexists; (split; [vm_compute; reflexivity|]); rewrite <- splits_ok; vm_compute; [reflexivity|discriminate].
Qed.
