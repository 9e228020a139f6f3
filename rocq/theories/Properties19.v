(** * Properties C99-C102: what entries, files and locale lists depend on; the
    library over any generated file *)
From Coq Require Import Sorting.Permutation.
From Verif Require Import Base Ast LangId Tokens GenRs Json JsonSpec MakeRules RustExpr PluralRules Tables FileSpec MakeFacts MakeMore
  CldrParser Operands Spec SpecR CodeSpec InputSpec Locality LocaleTexts Pipeline.
From Verif Require Properties6.
Open Scope N_scope.

(** C99: an entry of the output, token by token, is a function of the locale's
    name and rules alone *)
Theorem C99_entry_locality {ptr : ptr_width} : exists entry : bytes -> bmap bytes -> list token,
  forall srt jsons out rs t r d, sorts srt -> generate_rs srt jsons = Ok out -> inputs_are jsons rs ->
    In r rs -> data_of t r = Some d ->
    exists es, output_entries t out = Some es /\
      Permutation (List.map (fun kv => entry (fst kv) (snd kv)) (with_rules d)) es.
Proof. exact C99_lemma. Qed.
Print Assumptions C99_entry_locality.
(** the entry of "sv" in three files: with other locales, as an ordinal, under another version *)
Definition one_rule (v ty name : string) : bytes := Properties6.resource v ty
  (String.append """sv"":{""" (String.append name """:""n = 1 and v = 0""}")).
Definition among_others : bytes := Properties6.resource "37" "cardinal"
  """af"":{""pluralRule-count-one"":""n = 1""},""sv"":{""pluralRule-count-one"":""n = 1 and v = 0""},""root"":{""pluralRule-count-other"":""""}".
Example C99_case :
  let entries t j := output_entries t (Properties6.output [j]) in
  exists a s, s <> a /\ entries CARDINAL among_others = Some [a; s] /\
    entries CARDINAL (one_rule "37" "cardinal" "pluralRule-count-one") = Some [s] /\
    entries ORDINAL (one_rule "12" "ordinal" "pluralRule-count-one") = Some [s].
Proof.
  cbv zeta. do 2 eexists. split; [|split; [vm_compute; reflexivity|split; vm_compute; reflexivity]]. discriminate.
Qed.

(** C100 *)
Theorem C100_spread_over_files {ptr : ptr_width} srt jsons jsons' rs rs' :
  inputs_are jsons rs -> inputs_are jsons' rs' -> same_content rs rs' ->
  same_outcome (generate_rs srt jsons) (generate_rs srt jsons').
Proof. exact (C100_lemma srt jsons jsons' rs rs'). Qed.
Print Assumptions C100_spread_over_files.
(** one file with both types and version "037" against two files with version
    "37" and a third without any rules *)
Definition both : bytes := bs
  "{""supplemental"":{""version"":{""_unicodeVersion"":""13.0.0"",""_cldrVersion"":""037""},""plurals-type-ordinal"":{""sv"":{""pluralRule-ordinal-one"":""n = 1""}},""plurals-type-cardinal"":{""af"":{""pluralRule-count-one"":""n = 1""}}}}".
Definition apart : list bytes :=
  [Properties6.resource "37" "cardinal" """af"":{""pluralRule-count-one"":""n = 1""}";
   Properties6.resource "37" "collation" """af"":{""x"":""n = 1""}";
   Properties6.resource "37" "ordinal" """sv"":{""pluralRule-ordinal-one"":""n = 1""}"].
Example C100_case : exists rs rs' out, inputs_are [both] rs /\ inputs_are apart rs' /\ same_content rs rs' /\
  generate_rs insertion_sort [both] = Ok out /\ generate_rs insertion_sort apart = Ok out.
Proof.
  exists (Properties6.reads [both]), (Properties6.reads apart), (Properties6.output [both]).
  split; [apply Properties6.reads_ok; vm_compute; reflexivity|]. split; [apply Properties6.reads_ok; vm_compute; reflexivity|].
  split; [|split; vm_compute; reflexivity].
  split; [|intros []; vm_compute; constructor; constructor].
  exists (bs "037"), (bs "37"), 37%Z. split; [vm_compute; repeat constructor|]. split; [vm_compute; repeat constructor|].
  split; apply MakeProps.isize_iff; vm_compute; reflexivity.
Qed.

(** C101 *)
Theorem C101_ordinal_locales_have_cardinals how id pr : create how id ORDINAL = Ok pr ->
  exists pr', create how id CARDINAL = Ok pr'.
Proof. exact (C101_lemma how id pr). Qed.
Print Assumptions C101_ordinal_locales_have_cardinals.
Theorem C101_not_conversely : exists how id pr, create how id CARDINAL = Ok pr /\ create how id ORDINAL = Err "unknown locale".
Proof. exact C101_not_lemma. Qed.
Print Assumptions C101_not_conversely.
Example C101_case : exists pr pr', create LeftRight (mkLang (Some (bs "cy")) None None None) ORDINAL = Ok pr /\
  create LeftRight (mkLang (Some (bs "cy")) None None None) CARDINAL = Ok pr' /\ pr <> pr'.
Proof. do 2 eexists. split; [vm_compute; reflexivity|]. split; [vm_compute; reflexivity|]. discriminate. Qed.

(** C102: [follows] (Pipeline.v) says that strings, integers and floats get the
    category of UTS #35; [plain_distinct] that no two locales differ in variants only *)
Theorem C102_regenerated_library {ptr : ptr_width} srt jsons out rs t r d ai :
  sorts srt -> generate_rs srt jsons = Ok out -> inputs_are jsons rs -> In r rs -> data_of t r = Some d -> plain_distinct d ->
  (forall key id cs, input_locale d key id cs -> locale_supported ai id cs) ->
  exists tbl, output_table t out = Some tbl /\ forall how,
    (forall id, (exists pr, create_in how tbl id = Ok pr) <-> exists key id0 cs, input_locale d key id0 cs /\ id = drop_variants id0) /\
    (forall id, ~ (exists pr, create_in how tbl id = Ok pr) -> create_in how tbl id = Err "unknown locale") /\
    forall key id cs, input_locale d key id cs ->
    exists pr, create_in how tbl (drop_variants id) = Ok pr /\ get_locale pr = drop_variants id /\
      forall w, follows ai w pr cs.
Proof. exact (C102_lemma srt jsons out rs t r d ai). Qed.
Print Assumptions C102_regenerated_library.
(** rules of any other kind compute what their code tests *)
Theorem C102_any_rules {ptr : ptr_width} srt jsons out rs t r d :
  sorts srt -> generate_rs srt jsons = Ok out -> inputs_are jsons rs -> In r rs -> data_of t r = Some d -> plain_distinct d ->
  (forall key id cs, input_locale d key id cs -> li_language id <> None /\
     forall c co, In (c, co) cs -> c <> OTHER -> no_gaps co /\ code_fits co = true) ->
  exists tbl, output_table t out = Some tbl /\ forall how key id cs, input_locale d key id cs ->
    exists pr, create_in how tbl (drop_variants id) = Ok pr /\
      forall w x po, converted w x = Ok po -> select w pr x = Ok (code_select cs po).
Proof. exact (C102_code_lemma srt jsons out rs t r d). Qed.
Print Assumptions C102_any_rules.
Example C102_case :
  (exists r d, In r (Properties6.reads [Properties6.small_cardinal]) /\ data_of CARDINAL r = Some d /\ plain_distinct d /\
     forall key id cs, input_locale d key id cs -> locale_supported false id cs) /\
  match output_table CARDINAL (Properties6.output [Properties6.small_cardinal]) with
  | Some tbl => match create_in LeftRight tbl (mkLang (Some (bs "lag")) None None None) with
                | Ok pr => select W32 pr (InSigned (-1)) = Ok ONE /\ select W32 pr (InString (bs "0.000")) = Ok ZERO /\
                           select W32 pr (InUnsigned 2) = Ok OTHER
                | _ => False end /\
      create_in Halving tbl (mkLang (Some (bs "root")) None None None) = Err "unknown locale"
  | None => False
  end.
Proof.
  split; [|vm_compute; repeat split].
  destruct Properties6.C63_case as (r & d & I & D & H & _). exists r, d. split; [exact I|]. split; [exact D|]. split; [|exact H].
  vm_compute in I. destruct I as [<-|[]]. vm_compute in D. injection D as <-.
  intros ids F. vm_compute in F. inversion F as [|? i1 ? l1 X1 F1]; subst. inversion F1 as [|? i2 ? l2 X2 F2]; subst. inversion F2; subst.
  vm_compute in X1, X2. injection X1 as <-. injection X2 as <-. repeat constructor; cbn; intuition discriminate.
Qed.
