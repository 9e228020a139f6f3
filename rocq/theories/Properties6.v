(** * Properties C50-C59 and C63-C65: the generator as a whole

    [generate_rs srt jsons] is the model of [generate_rs], with
    [sort_unstable_by] replaced by [srt]; the theorems hold of every [srt] that
    [sorts].  What is read off the output text and the input texts is defined in
    FileSpec.v. *)
From Coq Require Import Lia Sorting.Permutation.
From Verif Require Import Base F64 Ast CldrParser Operands LangId Tokens GenPr GenRs Json JsonSpec JsonDe MakeRules RustExpr Spec
  FileSpec MakeFacts Cldr Conformance Represents MakeBody MakeProps JsonFacts MakeMore OtherText Shipped.
From Verif Require HostWidth.
From Verif Require Import TextRules TextCardinals37 TextOrdinals37.
Open Scope N_scope.

(** ** Small resources for the examples *)
Definition resource (version kind body : string) : bytes :=
  bs "{""supplemental"":{""version"":{""_unicodeVersion"":""13.0.0"",""_cldrVersion"":""" ++ bs version
  ++ bs """},""plurals-type-" ++ bs kind ++ bs """:{" ++ bs body ++ bs "}}}".
Definition small_cardinal : bytes := resource "37" "cardinal"
  """sv"":{""pluralRule-count-one"":""i = 1 and v = 0 @integer 1"",""pluralRule-count-other"":"" @integer 0, 2~16""},""root"":{""pluralRule-count-other"":""""},""lag"":{""pluralRule-count-zero"":""n = 0"",""pluralRule-count-one"":""i = 0,1 and n != 0""}".
Definition small_ordinal : bytes := resource "37" "ordinal"
  """sv"":{""pluralRule-ordinal-one"":""n % 10 = 1,2 and n % 100 != 11,12"",""pluralRule-ordinal-other"":""""}".
Definition output (jsons : list bytes) : bytes :=
  match generate_rs insertion_sort jsons with Ok out => out | _ => [] end.
Definition reads (jsons : list bytes) : list supplemental :=
  flat_map (fun j => match parse_plurals_resource_from_string j with Some r => [r] | None => [] end) jsons.
Definition all_read (jsons : list bytes) : bool :=
  forallb (fun j => match parse_plurals_resource_from_string j with Some _ => true | None => false end) jsons.
Lemma reads_ok jsons : all_read jsons = true -> inputs_are jsons (reads jsons).
Proof.
  induction jsons as [|j js IH]; intros H; [constructor|]. cbn [all_read forallb] in H. apply andb_prop in H as [A B].
  unfold reads. cbn [flat_map]. destruct (parse_plurals_resource_from_string j) eqn:E; [|discriminate]. constructor; [now apply resource_text_iff|now apply IH].
Qed.
Definition lang (s : string) : langid := mkLang (Some (bs s)) None None None.

(** C50 *)
Theorem C50_tables_sorted {ptr : ptr_width} srt jsons out t ks :
  sorts srt -> generate_rs srt jsons = Ok out -> output_keys t out = Some ks ->
  ids_sorted ks /\ (NoDup ks -> ids_increasing ks).
Proof. exact (C50_lemma srt jsons out t ks). Qed.
Print Assumptions C50_tables_sorted.
Example C50_case : sorts insertion_sort /\
  generate_rs insertion_sort [small_cardinal; small_ordinal] = Ok (output [small_cardinal; small_ordinal]) /\
  output_keys CARDINAL (output [small_cardinal; small_ordinal]) = Some [lang "lag"; lang "sv"].
Proof. split; [exact insertion_sorts|]. split; vm_compute; reflexivity. Qed.

(** C51: false as stated; the entry of "ca-valencia" is for "ca", and with a
    key "und" the table has no readable keys at all ([Language::from_raw_unchecked]
    is replaced by [None], which is no [Language]) *)
Theorem C51_one_entry_per_locale_refuted :
  exists jsons out rs r d ks, generate_rs insertion_sort jsons = Ok out /\ inputs_are jsons rs /\ In r rs /\
    data_of CARDINAL r = Some d /\ output_keys CARDINAL out = Some ks /\
    ~ exists ids, Forall2 (fun k id => langid_from_str k = Some id) (locales d) ids /\ Permutation ids ks.
Proof.
  pose (j := resource "37" "cardinal" """ca-valencia"":{""pluralRule-count-one"":""n = 1""}").
  assert (R : exists r, parse_plurals_resource_from_string j = Some r) by (vm_compute; eexists; reflexivity).
  destruct R as (r & R). exists [j], (output [j]), [r], r.
  exists [(bs "ca-valencia", [(bs "pluralRule-count-one", bs "n = 1")])], [lang "ca"].
  split; [vm_compute; reflexivity|]. split; [constructor; [now apply resource_text_iff|constructor]|]. split; [now left|].
  split; [vm_compute in R; injection R as <-; reflexivity|]. split; [vm_compute; reflexivity|].
  intros (ids & F & P). change (locales _) with [bs "ca-valencia"] in F.
  inversion F as [|? id ? l X Y]; subst. inversion Y; subst. vm_compute in X. injection X as <-.
  apply Permutation_length_1 in P. discriminate P.
Qed.
Print Assumptions C51_one_entry_per_locale_refuted.
(** What holds: one entry per key other than root, for the identifier of the key
    without its variants, provided no key has an empty language ("und"). *)
Theorem C51_one_entry_per_locale_partial {ptr : ptr_width} srt jsons out rs t :
  sorts srt -> generate_rs srt jsons = Ok out -> inputs_are jsons rs ->
  (forall r d, In r rs -> data_of t r = Some d ->
     exists ids, Forall2 (fun k id => langid_from_str k = Some id) (locales d) ids /\
       (Forall (fun id => li_language id <> None) ids ->
        exists ks, output_keys t out = Some ks /\ Permutation (List.map drop_variants ids) ks) /\
       (~ Forall (fun id => li_language id <> None) ids -> output_keys t out = None)) /\
  ((forall r, In r rs -> data_of t r = None) -> ~ output_has t out).
Proof.
  intros S G I. split; [intros r d; exact (C51_lemma srt jsons out rs t r d S G I)|exact (C51_none srt jsons out rs t G I)].
Qed.
Print Assumptions C51_one_entry_per_locale_partial.
Example C51_case : inputs_are [small_cardinal] (reads [small_cardinal]) /\
  (exists r d, In r (reads [small_cardinal]) /\ data_of CARDINAL r = Some d /\ locales d = [bs "lag"; bs "sv"]) /\
  output_keys CARDINAL (output [small_cardinal]) = Some [lang "lag"; lang "sv"] /\
  output_keys CARDINAL (output [resource "37" "cardinal" """und"":{""pluralRule-count-one"":""n = 1""}"]) = None.
Proof.
  split; [apply reads_ok; vm_compute; reflexivity|]. split; [|split; vm_compute; reflexivity].
  assert (R : exists r d, reads [small_cardinal] = [r] /\ data_of CARDINAL r = Some d).
  { assert (R : exists r, reads [small_cardinal] = [r]) by (vm_compute; eexists; reflexivity). destruct R as (r & R).
    vm_compute in R. injection R as <-. do 2 eexists. split; [vm_compute; reflexivity|reflexivity]. }
  destruct R as (r & d & R & D). exists r, d. rewrite R. split; [now left|]. split; [exact D|].
  vm_compute in R. injection R as <-. injection D as <-. vm_compute. reflexivity.
Qed.

(** C52: the texts are the shipped ones; the output and rules.rs have the same
    tokens up to what rustfmt changes ([same_formatted]: trailing commas, doubled
    parentheses, braces around a closure's path, [1 . 0] against [1.0], and two
    [use] items exchanged), and read as the same version and tables. *)
Theorem C52_shipped_file {ptr : ptr_width} srt : sorts srt ->
  exists out ts ts', generate_rs srt [cardinals37_json; ordinals37_json] = Ok out /\ lex out = Some ts /\ lex rules_rs = Some ts' /\
    read_file ts = read_file ts' /\ same_formatted use_langid use_subtags ts ts'.
Proof.
  intros S. rewrite HostWidth.C95_any_lemma; [exact (C52_lemma srt S)|exact S|]. intros j [E|[E|[]]]; subst j; [now left|right; now left].
Qed.
Print Assumptions C52_shipped_file.
Example C52_case : read_file gen37_tokens = Tables.shipped /\ sorts insertion_sort.
Proof. exact (conj gen37_reads insertion_sorts). Qed.

(** C53: false as stated; the version "-1" is emitted as 18446744073709551615 *)
Theorem C53_versions_refuted :
  exists jsons out rs z, generate_rs insertion_sort jsons = Ok out /\ inputs_are jsons rs /\
    Forall (fun r => version_number (version_of r) z) rs /\ output_version out <> None /\
    forall n, output_version out = Some n -> Z.of_N n <> z.
Proof.
  pose (j := resource "-1" "ordinal" "").
  assert (R : exists r, parse_plurals_resource_from_string j = Some r) by (vm_compute; eexists; reflexivity).
  destruct R as (r & R). exists [j], (output [j]), [r], (-1)%Z.
  split; [vm_compute; reflexivity|]. split; [constructor; [now apply resource_text_iff|constructor]|]. split.
  - constructor; [|constructor]. vm_compute in R. injection R as <-. apply isize_iff. vm_compute. reflexivity.
  - assert (O : output_version (output [j]) = Some 18446744073709551615) by (vm_compute; reflexivity). rewrite O.
    split; [discriminate|]. intros n E. injection E as <-. discriminate.
Qed.
Print Assumptions C53_versions_refuted.
(** What holds: different versions are refused; otherwise the common version is
    an integer in the range of isize, and is emitted modulo 2^64, so as itself
    when it is not negative. *)
Theorem C53_versions_partial {ptr : ptr_width} srt jsons rs : inputs_are jsons rs ->
  (forall r1 r2, In r1 rs -> In r2 rs -> version_of r1 <> version_of r2 -> exists w, generate_rs srt jsons = Panic w) /\
  (forall out, generate_rs srt jsons = Ok out ->
     exists v z, Forall (fun r => version_of r = v) rs /\ version_number v z /\
       output_version out = Some (Z.to_N (z mod 2 ^ 64)) /\ ((0 <= z)%Z -> output_version out = Some (Z.to_N z))).
Proof.
  intros I. split; [intros r1 r2; exact (C53_differ srt jsons rs r1 r2 I)|].
  intros out G. exact (C53_emits srt jsons rs out G I).
Qed.
Print Assumptions C53_versions_partial.
Example C53_case :
  (let js := [small_cardinal; resource "36.1" "ordinal" ""] in
   inputs_are js (reads js) /\ List.map version_of (reads js) = [bs "37"; bs "36.1"] /\
   generate_rs insertion_sort js = Panic "All input resources must use the same CLDR version!") /\
  output_version (output [small_cardinal; small_ordinal]) = Some 37.
Proof. split; [split; [apply reads_ok; vm_compute; reflexivity|split; vm_compute; reflexivity]|vm_compute; reflexivity]. Qed.

(** C54 *)
Theorem C54_duplicate_or_missing {ptr : ptr_width} srt jsons rs : inputs_are jsons rs ->
  (forall t l1 r1 l2 r2 l3, rs = l1 ++ r1 :: l2 ++ r2 :: l3 -> data_of t r1 <> None -> data_of t r2 <> None ->
     exists w, generate_rs srt jsons = Panic w) /\
  (Forall (fun r => data_of CARDINAL r = None /\ data_of ORDINAL r = None) rs -> exists w, generate_rs srt jsons = Panic w).
Proof.
  intros I. split; [|exact (C54_none srt jsons rs I)].
  intros t l1 r1 l2 r2 l3 ->. exact (C54_twice srt jsons l1 r1 l2 r2 l3 t I).
Qed.
Print Assumptions C54_duplicate_or_missing.
Example C54_case :
  (let js := [small_cardinal; small_ordinal; small_cardinal] in
   inputs_are js (reads js) /\ generate_rs insertion_sort js = Panic "Cannot provide two inputs with the same data!") /\
  (let js := [bs "{""supplemental"":{""version"":{""_unicodeVersion"":"""",""_cldrVersion"":""37""}}}"] in
   inputs_are js (reads js) /\ generate_rs insertion_sort js = Panic "None of the input files provided core data!").
Proof. split; (split; [apply reads_ok; vm_compute; reflexivity|vm_compute; reflexivity]). Qed.

(** C55 *)
Theorem C55_input_order {ptr : ptr_width} srt jsons jsons' : Permutation jsons jsons' ->
  same_outcome (generate_rs srt jsons) (generate_rs srt jsons').
Proof. exact (generate_perm_outcome srt jsons jsons'). Qed.
Print Assumptions C55_input_order.
Example C55_case : Permutation [small_cardinal; small_ordinal] [small_ordinal; small_cardinal] /\
  (exists out, generate_rs insertion_sort [small_ordinal; small_cardinal] = Ok out).
Proof. split; [apply perm_swap|]. exists (output [small_ordinal; small_cardinal]). vm_compute. reflexivity. Qed.

(** C56: [same_text a b] says that both are JSON texts and that one value is the
    other with the members of objects (with distinct keys) reordered *)
Theorem C56_key_order {ptr : ptr_width} srt jsons jsons' : Forall2 same_text jsons jsons' -> generate_rs srt jsons = generate_rs srt jsons'.
Proof. exact (C56_lemma srt jsons jsons'). Qed.
Print Assumptions C56_key_order.
Definition reordered_ordinal : bytes :=
  bs "{ ""supplemental"" : { ""plurals-type-ordinal"": {""sv"":{""pluralRule-ordinal-other"":"""",""pluralRule-ordinal-one"":""n % 10 = 1,2 and n % 100 != 11,12""}}, ""version"":{""_cldrVersion"":""37"",""_unicodeVersion"":""13.0.0""}}}".
Example C56_case : same_text small_ordinal reordered_ordinal.
Proof.
  assert (A : exists x, json_from_str small_ordinal = Some x) by (vm_compute; eexists; reflexivity).
  assert (B : exists x, json_from_str reordered_ordinal = Some x) by (vm_compute; eexists; reflexivity).
  destruct A as (x & A), B as (y & B). exists x, y. split; [auto|]. split; [auto|]. vm_compute in A, B. injection A as <-. injection B as <-.
  assert (N2 : forall (A : Type) (a b : A), a <> b -> NoDup [a; b]).
  { intros A a b H. constructor; [intros [E|[]]; congruence|]. constructor; [intros []|constructor]. }
  assert (N1 : forall (A : Type) (a : A), NoDup [a]) by (intros A a; constructor; [intros []|constructor]).
  eapply same_obj; [apply N1| |apply Permutation_refl]. constructor; [split; [reflexivity|]|constructor]. cbn [snd].
  eapply same_obj; [apply N2; discriminate| |apply perm_swap]. constructor; [split; [reflexivity|]|constructor; [split; [reflexivity|]|constructor]]; cbn [snd].
  - eapply same_obj; [apply N2; discriminate| |apply perm_swap]. repeat (constructor; [split; [reflexivity|apply same_refl]|]). constructor.
  - eapply same_obj; [apply N1| |apply Permutation_refl]. constructor; [split; [reflexivity|]|constructor]. cbn [snd].
    eapply same_obj; [apply N2; discriminate| |apply perm_swap]. repeat (constructor; [split; [reflexivity|apply same_refl]|]). constructor.
Qed.

(** C57, first half: an entry of the table, the locale it comes from, and when
    its function returns OTHER *)
Theorem C57_other_is_fallback {ptr : ptr_width} srt jsons out rs t tbl id b :
  sorts srt -> generate_rs srt jsons = Ok out -> inputs_are jsons rs -> output_table t out = Some tbl -> In (id, b) tbl ->
  exists r d key id0 cs, In r rs /\ data_of t r = Some d /\ input_locale d key id0 cs /\ id = drop_variants id0 /\
    Forall2 (fun cc arm => snd arm = fst cc /\ exists ts, gen_pr (snd cc) = Ok ts /\ read_bexpr ts = Some (fst arm))
      (List.filter not_other cs) (b_arms b) /\
    forall po c, eval_body b po = Ok c -> (c = OTHER <-> Forall (fun arm => eval (fst arm) po = Ok false) (b_arms b)).
Proof. exact (C57_lemma srt jsons out rs t tbl id b). Qed.
Print Assumptions C57_other_is_fallback.
Example C57_case : match output_table ORDINAL (output [small_ordinal]) with
  | Some [(id, b)] => id = lang "sv" /\ List.length (b_arms b) = 1%nat /\
      eval_body b (operands_from_unsigned 111) = Ok OTHER /\ eval_body b (operands_from_unsigned 101) = Ok ONE
  | _ => False
  end.
Proof. vm_compute. repeat split; reflexivity. Qed.
(** C57, second half: false for texts that do not parse; with "zzz" for "other"
    there is a panic *)
Definition renamed_other (name : bytes) (a b : bytes * bytes) : Prop :=
  fst a = fst b /\ (snd a = snd b \/ fst a = name).
Theorem C57_other_text_refuted :
  exists jsons jsons' out w, generate_rs insertion_sort jsons = Ok out /\ generate_rs insertion_sort jsons' = Panic w /\
    exists r r' n rules rules', inputs_are jsons [r] /\ inputs_are jsons' [r'] /\ version_of r = version_of r' /\
      data_of ORDINAL r = None /\ data_of ORDINAL r' = None /\ is_other_name n /\
      data_of CARDINAL r = Some [(bs "sv", rules)] /\ data_of CARDINAL r' = Some [(bs "sv", rules')] /\
      Forall2 (renamed_other n) rules rules'.
Proof.
  pose (j := resource "37" "cardinal" """sv"":{""pluralRule-count-one"":""n = 1"",""pluralRule-count-other"":""""}").
  pose (j' := resource "37" "cardinal" """sv"":{""pluralRule-count-one"":""n = 1"",""pluralRule-count-other"":""zzz""}").
  assert (R : exists r, parse_plurals_resource_from_string j = Some r) by (vm_compute; eexists; reflexivity).
  assert (R' : exists r, parse_plurals_resource_from_string j' = Some r) by (vm_compute; eexists; reflexivity).
  destruct R as (r & R), R' as (r' & R').
  assert (W : exists w, generate_rs insertion_sort [j'] = Panic w) by (vm_compute; eexists; reflexivity). destruct W as (w & W).
  exists [j], [j'], (output [j]), w. split; [vm_compute; reflexivity|]. split; [exact W|].
  exists r, r', (bs "pluralRule-count-other").
  exists [(bs "pluralRule-count-one", bs "n = 1"); (bs "pluralRule-count-other", [])],
         [(bs "pluralRule-count-one", bs "n = 1"); (bs "pluralRule-count-other", bs "zzz")].
  split; [constructor; [now apply resource_text_iff|constructor]|]. split; [constructor; [now apply resource_text_iff|constructor]|]. vm_compute in R, R'. injection R as <-. injection R' as <-.
  split; [reflexivity|]. split; [reflexivity|]. split; [reflexivity|].
  split; [exists (bs "other"); split; [apply third_part_iff; reflexivity|apply names_iff; reflexivity]|]. split; [reflexivity|]. split; [reflexivity|].
  constructor; [split; [reflexivity|now left]|constructor; [split; [reflexivity|now right]|constructor]].
Qed.
Print Assumptions C57_other_text_refuted.
(** What holds: texts that parse have no influence ([same_but_other]: the inputs
    differ only in such texts of rules named "other" or by no category name). *)
Theorem C57_other_text_partial {ptr : ptr_width} srt jsons jsons' rs rs' : uniform srt -> inputs_are jsons rs -> inputs_are jsons' rs' ->
  Forall2 same_but_other rs rs' -> generate_rs srt jsons = generate_rs srt jsons'.
Proof. exact (C57_text srt jsons jsons' rs rs'). Qed.
Print Assumptions C57_other_text_partial.
(** and exactly: if other texts are put there, the output is the same when all of
    them parse, and there is none otherwise ([others_parse], [free_other] in OtherText.v) *)
Theorem C57_other_text_exactly {ptr : ptr_width} srt jsons jsons' rs rs' out : sorts srt -> uniform srt ->
  inputs_are jsons rs -> inputs_are jsons' rs' -> Forall2 free_other rs rs' -> generate_rs srt jsons = Ok out ->
  (generate_rs srt jsons' = Ok out <-> others_parse rs') /\
  (others_parse rs' \/ exists w, generate_rs srt jsons' = Panic w).
Proof. exact (C57_exact_lemma srt jsons jsons' rs rs' out). Qed.
Print Assumptions C57_other_text_exactly.
Example C57_text_case : uniform insertion_sort /\
  let js := [small_ordinal] in
  let js' := [resource "37" "ordinal" """sv"":{""pluralRule-ordinal-one"":""n % 10 = 1,2 and n % 100 != 11,12"",""pluralRule-ordinal-other"":""n = 7 @integer 3""}"] in
  Forall2 same_but_other (reads js) (reads js') /\ reads js <> reads js' /\ inputs_are js' (reads js').
Proof.
  split; [exact insertion_uniform|]. split; [|split; [vm_compute; discriminate|apply reads_ok; vm_compute; reflexivity]].
  constructor; [|constructor]. split; [reflexivity|]. split; [exact Logic.I|].
  constructor; [|constructor]. split; [reflexivity|]. right. constructor; [split; [reflexivity|now left]|].
  constructor; [|constructor]. split; [reflexivity|]. right. split; [exists (bs "other"); split; [apply third_part_iff; reflexivity|apply names_iff; reflexivity]|].
  do 2 eexists. split; vm_compute; reflexivity.
Qed.

Definition with_other (o : string) : list bytes :=
  [resource "37" "cardinal" (String.append """sv"":{""pluralRule-count-one"":""n = 1"",""pluralRule-count-other"":""" (String.append o """}"))].
Example C57_exactly_case :
  sorts insertion_sort /\ uniform insertion_sort /\ Forall2 free_other (reads (with_other "")) (reads (with_other "zzz")) /\
  inputs_are (with_other "") (reads (with_other "")) /\ inputs_are (with_other "zzz") (reads (with_other "zzz")) /\
  generate_rs insertion_sort (with_other "") = Ok (output (with_other "")) /\
  generate_rs insertion_sort (with_other "n = 2") = Ok (output (with_other "")) /\ ~ others_parse (reads (with_other "zzz")).
Proof.
  assert (F : Forall2 free_other (reads (with_other "")) (reads (with_other "zzz"))).
  { constructor; [|constructor]. split; [reflexivity|]. intros [|]; [|exact Logic.I].
    constructor; [|constructor]. split; [reflexivity|]. constructor; [split; [reflexivity|now left]|]. constructor; [|constructor].
    split; [reflexivity|]. right. exists (bs "other"). split; [apply third_part_iff; reflexivity|apply names_iff; reflexivity]. }
  assert (I : inputs_are (with_other "") (reads (with_other ""))) by (apply reads_ok; vm_compute; reflexivity).
  assert (J : inputs_are (with_other "zzz") (reads (with_other "zzz"))) by (apply reads_ok; vm_compute; reflexivity).
  assert (G : generate_rs insertion_sort (with_other "") = Ok (output (with_other ""))) by (vm_compute; reflexivity).
  split; [exact insertion_sorts|]. split; [exact insertion_uniform|]. split; [exact F|]. split; [exact I|]. split; [exact J|]. split; [exact G|].
  split; [vm_compute; reflexivity|]. intros O.
  apply (proj1 (C57_other_text_exactly insertion_sort _ _ _ _ _ insertion_sorts insertion_uniform I J F G)) in O. vm_compute in O. discriminate O.
Qed.

(** C58: false; "ca" and "ca-valencia" *)
Theorem C58_distinct_keys_refuted :
  exists jsons out k1 k2 id1 id2 key, generate_rs insertion_sort jsons = Ok out /\ langid_from_str k1 = Some id1 /\
    langid_from_str k2 = Some id2 /\ id1 <> id2 /\ gen_langid id1 = gen_langid id2 /\ output_keys CARDINAL out = Some [key; key].
Proof.
  pose (j := resource "37" "cardinal" """ca"":{""pluralRule-count-one"":""n = 1""},""ca-valencia"":{""pluralRule-count-one"":""n = 2""}").
  exists [j], (output [j]), (bs "ca"), (bs "ca-valencia"), (lang "ca"), (mkLang (Some (bs "ca")) None None (Some [bs "valencia"])), (lang "ca").
  split; [vm_compute; reflexivity|]. split; [vm_compute; reflexivity|]. split; [vm_compute; reflexivity|].
  split; [discriminate|]. split; vm_compute; reflexivity.
Qed.
Print Assumptions C58_distinct_keys_refuted.
(** What holds: keys collide exactly when they differ in variants only. *)
Theorem C58_distinct_keys_partial a b ida idb : langid_from_str a = Some ida -> langid_from_str b = Some idb ->
  (gen_langid ida = gen_langid idb <-> drop_variants ida = drop_variants idb).
Proof. exact (C58_lemma a b ida idb). Qed.
Print Assumptions C58_distinct_keys_partial.
Example C58_case : let id := mkLang (Some (bs "sr")) (Some (bs "Latn")) (Some (bs "ME")) None in
  langid_from_str (bs "sr_latn-me") = Some id /\ langid_from_str (bs "SR") = Some (lang "sr") /\ gen_langid id <> gen_langid (lang "sr").
Proof. split; [vm_compute; reflexivity|]. split; [vm_compute; reflexivity|]. vm_compute. discriminate. Qed.

(** C59 *)
Theorem C59_raw_subtags key id : langid_from_str key = Some id ->
  (forall s, li_language id = Some s -> subtag_of_raw (raw_of_subtag s) = s /\ raw_of_subtag s < 2 ^ 64) /\
  (forall s, li_script id = Some s \/ li_region id = Some s -> subtag_of_raw (raw_of_subtag s) = s /\ raw_of_subtag s < 2 ^ 32).
Proof. exact (C59_lemma key id). Qed.
Print Assumptions C59_raw_subtags.
Example C59_case : langid_from_str (bs "pt-Latn-PT") = Some (mkLang (Some (bs "pt")) (Some (bs "Latn")) (Some (bs "PT")) None) /\
  raw_of_subtag (bs "pt") = 29808 /\ raw_of_subtag (bs "PT") = 21584 /\ subtag_of_raw 1853120844 = bs "Latn".
Proof. split; [vm_compute; reflexivity|]. split; [vm_compute; reflexivity|]. split; vm_compute; reflexivity. Qed.

(** C63: from the JSON text to the category.  [locale_supported ai id cs] says
    that the language is not empty and every condition of a category other than
    OTHER uses only relations whose generated code means what UTS #35 says
    (Conformance.v), with [ai] for integral numbers only. *)
Theorem C63_generated_follows_cldr {ptr : ptr_width} srt jsons out rs t r d ai :
  sorts srt -> generate_rs srt jsons = Ok out -> inputs_are jsons rs -> In r rs -> data_of t r = Some d ->
  (forall key id cs, input_locale d key id cs -> locale_supported ai id cs) ->
  exists tbl, output_table t out = Some tbl /\
    forall key id cs, input_locale d key id cs ->
    exists b, In (drop_variants id, b) tbl /\
    (forall s dec, numeral s dec -> small dec -> (ai = true -> integral dec = true) ->
      exists po c, operands_from_str s = Ok po /\ eval_body b po = Ok c /\ cldr_select cs dec c) /\
    (forall x, x < 2 ^ 64 -> exists c, eval_body b (operands_from_unsigned x) = Ok c /\ cldr_select cs (mkDecimal x []) c).
Proof. exact (C63_lemma srt jsons out rs t r d ai). Qed.
Print Assumptions C63_generated_follows_cldr.
Example C63_case : exists r d, In r (reads [small_cardinal]) /\ data_of CARDINAL r = Some d /\
  (forall key id cs, input_locale d key id cs -> locale_supported false id cs) /\
  (exists key id cs, input_locale d key id cs /\ List.length cs = 2%nat).
Proof.
  assert (R : exists r, reads [small_cardinal] = [r]) by (vm_compute; eexists; reflexivity). destruct R as (r & R).
  pose (sv := [(bs "pluralRule-count-one", bs "i = 1 and v = 0 @integer 1"); (bs "pluralRule-count-other", bs " @integer 0, 2~16")]).
  pose (lag := [(bs "pluralRule-count-one", bs "i = 0,1 and n != 0"); (bs "pluralRule-count-zero", bs "n = 0")]).
  exists r, [(bs "lag", lag); (bs "root", [(bs "pluralRule-count-other", [])]); (bs "sv", sv)]. rewrite R. split; [now left|].
  split; [vm_compute in R; injection R as <-; reflexivity|].
  assert (U : forall n tx cc c co, rule_reads (n, tx) cc ->
    nth_error (split_on (fun c => c =? 45) n) 2 = Some c -> parse_plural_condition tx = Ok co -> cc = (category_of_name c, co)).
  { intros n tx [k co'] c co RR Q1 Q2. apply rule_reads_iff in RR as (p & P1 & P2 & P3). cbn [fst snd] in *. rewrite Q1 in P1. injection P1 as <-. rewrite Q2 in P3. injection P3 as <-. now subst. }
  split.
  - intros key id cs (NR & L & rules & I & F). destruct I as [E|[E|[E|[]]]]; injection E as <- <-.
    + inversion F as [|? x1 ? l1 X1 F1]; subst. inversion F1 as [|? x2 ? l2 X2 F2]; subst. inversion F2; subst.
      eapply U in X1; [|vm_compute; reflexivity|vm_compute; reflexivity]. eapply U in X2; [|vm_compute; reflexivity|vm_compute; reflexivity]. subst.
      split; [vm_compute in L; injection L as <-; discriminate|].
      intros c co [E|[E|[]]] _; injection E as <- <-; vm_compute; reflexivity.
    + now contradiction NR.
    + inversion F as [|? x1 ? l1 X1 F1]; subst. inversion F1 as [|? x2 ? l2 X2 F2]; subst. inversion F2; subst.
      eapply U in X1; [|vm_compute; reflexivity|vm_compute; reflexivity]. eapply U in X2; [|vm_compute; reflexivity|vm_compute; reflexivity]. subst.
      split; [vm_compute in L; injection L as <-; discriminate|].
      intros c co [E|[E|[]]] N; injection E as <- <-; [vm_compute; reflexivity|now contradiction N].
  - assert (P : exists c1 c2, parse_plural_condition (bs "i = 1 and v = 0 @integer 1") = Ok c1 /\ parse_plural_condition (bs " @integer 0, 2~16") = Ok c2)
      by (vm_compute; do 2 eexists; split; reflexivity). destruct P as (c1 & c2 & P1 & P2).
    exists (bs "sv"), (lang "sv"), [(ONE, c1); (OTHER, c2)]. split; [|reflexivity]. split; [discriminate|]. split; [vm_compute; reflexivity|].
    exists sv. split; [right; right; now left|]. constructor; [apply rule_reads_iff; exists (bs "one"); repeat split; exact P1|].
    constructor; [apply rule_reads_iff; exists (bs "other"); repeat split; exact P2|constructor].
Qed.

(** C64 *)
Theorem C64_when_it_succeeds {ptr : ptr_width} srt jsons : sorts srt ->
  (exists out, generate_rs srt jsons = Ok out) <-> (exists rs, inputs_are jsons rs /\ acceptable rs).
Proof. exact (C64_lemma srt jsons). Qed.
Print Assumptions C64_when_it_succeeds.
Example C64_case : (exists rs, inputs_are [small_cardinal; small_ordinal] rs /\ acceptable rs) /\
  ~ (exists rs, inputs_are [small_cardinal; small_cardinal] rs /\ acceptable rs).
Proof.
  split.
  - apply (C64_when_it_succeeds insertion_sort); [exact insertion_sorts|]. exists (output [small_cardinal; small_ordinal]). vm_compute. reflexivity.
  - rewrite <- (C64_when_it_succeeds insertion_sort) by exact insertion_sorts. intros (out & E). vm_compute in E. discriminate E.
Qed.

(** C65 *)
Theorem C65_any_sort {ptr : ptr_width} srt srt' jsons : sorts srt -> sorts srt' ->
  (forall j r t d, In j jsons -> resource_text j r -> data_of t r = Some d -> ids_distinct d) ->
  generate_rs srt jsons = generate_rs srt' jsons.
Proof. exact (sorter_irrelevant srt srt' jsons). Qed.
Print Assumptions C65_any_sort.
Example C65_case j r t d : In j [cardinals37_json; ordinals37_json] -> resource_text j r ->
  data_of t r = Some d -> ids_distinct d.
Proof.
  intros J. apply distinct_text_ok. pose proof shipped_distinct as H. rewrite forallb_forall in H. now apply H.
Qed.
