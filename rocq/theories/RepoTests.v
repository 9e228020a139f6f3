(** * The tests and doc tests of the repository, replayed on the model

    Each [Example] is one [#[test]] or doc test; the name is that of the test.
    Float literals are read by the model of [f64::from_str]. *)
From Verif Require Import Base F64 Ast CldrParser Operands LangId GenRs Json MakeRules RustExpr Tables PluralRules Fixtures.
From Verif Require Import TextCardinals33 TextOrdinals33.
Open Scope N_scope.

Definition lit (s : string) : f64 := match f64_from_str (bs s) with Some x => x | None => SpecFloat.S754_nan end.
Arguments lit s%string_scope.
Definition ops (n : string) (i v w f t : N) : res operands := Ok (mkOps (lit n) i v w f t).
Arguments ops n%string_scope.
Definition str (s : string) : res operands := operands_from_str (bs s).
Arguments str s%string_scope.

(** ** intl_pluralrules/tests/operands.rs *)
(** operands.rs:10-41 *)
Example test_operands_from_str :
  str "0" = ops "0" 0 0 0 0 0 /\ str "2" = ops "2" 2 0 0 0 0 /\ str "57" = ops "57" 57 0 0 0 0 /\
  str "987" = ops "987" 987 0 0 0 0 /\ str "1234567" = ops "1234567" 1234567 0 0 0 0 /\
  str "-10" = ops "10" 10 0 0 0 0 /\ str "-1000000" = ops "1000000" 1000000 0 0 0 0 /\
  str "0.23" = ops "0.23" 0 2 2 23 23 /\ str "0.230" = ops "0.230" 0 3 2 230 23 /\
  str "23.00" = ops "23.00" 23 2 0 0 0 /\ str "0.0203000" = ops "0.0203000" 0 7 4 203000 203 /\
  str "123.45" = ops "123.45" 123 2 2 45 45 /\ str "-1234.567" = ops "1234.567" 1234 3 3 567 567.
Proof. vm_compute. repeat split. Qed.

(** operands.rs:43-68; the literals are [i32] *)
Definition int (z : Z) : res operands := operands_from_signed W64 z.
Definition int32 (z : Z) : res operands := operands_from_signed W32 z.
Example test_operands_from_int : forall from, from = int \/ from = int32 ->
  from 0%Z = ops "0" 0 0 0 0 0 /\ from 2%Z = ops "2" 2 0 0 0 0 /\ from 57%Z = ops "57" 57 0 0 0 0 /\
  from 987%Z = ops "987" 987 0 0 0 0 /\ from 1234567%Z = ops "1234567" 1234567 0 0 0 0 /\
  from (-10)%Z = ops "10" 10 0 0 0 0 /\ from (-1000000)%Z = ops "1000000" 1000000 0 0 0 0.
Proof. intros from [-> | ->]; vm_compute; repeat split. Qed.

(** operands.rs:70-93 *)
Definition float (s : string) : res operands := operands_from_f64 (lit s).
Arguments float s%string_scope.
Example test_operands_from_float :
  float "0.23" = ops "0.23" 0 2 2 23 23 /\ float "0.230" = ops "0.230" 0 2 2 23 23 /\
  float "0.0203000" = ops "0.0203000" 0 4 4 203 203 /\ float "123.45" = ops "123.45" 123 2 2 45 45 /\
  float "-1234.567" = ops "1234.567" 1234 3 3 567 567.
Proof. vm_compute. repeat split. Qed.

(** operands.rs:95-98 *)
Example test_incorrect_operand : str "foo" = Err "Incorrect number passed!".
Proof. reflexivity. Qed.

(** operands.rs:100-105; also the doc test of [get_locale], lib.rs:171-184 *)
Definition table_of (t : pr_type) : table := match t with CARDINAL => PRS_CARDINAL | ORDINAL => PRS_ORDINAL end.
Definition created (how : std_search) (t : pr_type) (s : string) : res plural_rules :=
  let? id := unwrap "Parsing failed." (langid_from_str (bs s)) in create_in how (table_of t) id.
Arguments created how t s%string_scope.
Definition chosen (how : std_search) (t : pr_type) (s : string) (x : input) : res category :=
  let? pr := created how t s in select W64 pr x.
Arguments chosen how t s%string_scope x.
Example test_get_locale how :
  exists id pr, langid_from_str (bs "naq") = Some id /\ created how CARDINAL "naq" = Ok pr /\ get_locale pr = id.
Proof. destruct how; vm_compute; do 2 eexists; split; reflexivity || (split; reflexivity). Qed.

(** operands.rs:107-133: a type whose conversion is its own *)
Example custom_type how : chosen how CARDINAL "en" (InOps (mkOps (f64_of_N 5) 5 0 0 0 0)) = Ok OTHER.
Proof. destruct how; vm_compute; reflexivity. Qed.

(** operands.rs:135-140 *)
Example many_decimal_places : exists o, float "2.813829837982735" = Ok o.
Proof. vm_compute. eexists. reflexivity. Qed.

(** ** intl_pluralrules/src/lib.rs:186-225 and doc tests *)
Example cardinals_test how :
  chosen how CARDINAL "naq" (InSigned 1) = Ok ONE /\ chosen how CARDINAL "naq" (InSigned 2) = Ok TWO /\
  chosen how CARDINAL "naq" (InSigned 5) = Ok OTHER /\ created how CARDINAL "xx" = Err "unknown locale".
Proof. destruct how; vm_compute; repeat split. Qed.
Example ordinals_rules how :
  chosen how ORDINAL "uk" (InSigned 33) = Ok FEW /\ chosen how ORDINAL "uk" (InSigned 113) = Ok OTHER.
Proof. destruct how; vm_compute; repeat split. Qed.
Example version_test : CLDR_VERSION = 37.
Proof. vm_compute. reflexivity. Qed.
Example locale_test : get_locales_in PRS_CARDINAL <> [].
Proof. vm_compute. discriminate. Qed.

(** ** cldr_pluralrules_parser/tests/conditions.rs *)
Definition parsed (s : string) : res condition := let? r := parse_plural_rule (bs s) in Ok (ru_condition r).
Arguments parsed s%string_scope.
Definition simple (o : operand) (op : operator) (l : range_list) : relation := mkRel (mkExpr o None) op l.
Definition modulo (m : N) (op : operator) (l : range_list) : relation := mkRel (mkExpr ON (Some m)) op l.
Example simple_empty : parsed "" = Ok [] /\ parsed " " = Ok [] /\ parsed "@integer 0" = Ok [] /\ parsed " @integer 0" = Ok [].
Proof. vm_compute. repeat split. Qed.
Example simple_expression : parsed "i = 5" = Ok [[simple OI OpEQ [RValue 5]]].
Proof. vm_compute. reflexivity. Qed.
Example multi_value : parsed "i = 5, 7, 9" = Ok [[simple OI OpEQ [RValue 5; RValue 7; RValue 9]]].
Proof. vm_compute. reflexivity. Qed.
Example multi_range : parsed "i in 5..9, 11..15" = Ok [[simple OI OpIn [RRange (mkRange 5 9); RRange (mkRange 11 15)]]].
Proof. vm_compute. reflexivity. Qed.
Example and_condition : parsed "i in 5 and v not in 2" = Ok [[simple OI OpIn [RValue 5]; simple OV OpNotIn [RValue 2]]].
Proof. vm_compute. reflexivity. Qed.
Example or_condition : parsed "i is 5 or v within 2" = Ok [[simple OI OpIs [RValue 5]]; [simple OV OpWithin [RValue 2]]].
Proof. vm_compute. reflexivity. Qed.
Example ars_many_rule :
  parsed "n % 100 = 11..99 @integer 11~26, 111, 1011, … @decimal 11.0, 12.0, 13.0, 14.0, 15.0, 16.0, 17.0, 18.0, 111.0, 1011.0, …"
  = Ok [[modulo 100 OpEQ [RRange (mkRange 11 99)]]].
Proof. vm_compute. reflexivity. Qed.
Example be_one_rule :
  parsed "n % 10 = 1 and n % 100 != 11 @integer 1, 21, 31, 41, 51, 61, 71, 81, 101, 1001, … @decimal 1.0, 21.0, 31.0, 41.0, 51.0, 61.0, 71.0, 81.0, 101.0, 1001.0, …"
  = Ok [[modulo 10 OpEQ [RValue 1]; modulo 100 OpNotEQ [RValue 11]]].
Proof. vm_compute. reflexivity. Qed.
Example be_few_rule :
  parsed "n % 10 = 2..4 and n % 100 != 12..14 @integer 2~4, 22~24, 32~34, 42~44, 52~54, 62, 102, 1002, … @decimal 2.0, 3.0, 4.0, 22.0, 23.0, 24.0, 32.0, 33.0, 102.0, 1002.0, …"
  = Ok [[modulo 10 OpEQ [RRange (mkRange 2 4)]; modulo 100 OpNotEQ [RRange (mkRange 12 14)]]].
Proof. vm_compute. reflexivity. Qed.
Example be_many_rule :
  parsed "n % 10 = 0 or n % 10 = 5..9 or n % 100 = 11..14 @integer 0, 5~19, 100, 1000, 10000, 100000, 1000000, … @decimal 0.0, 5.0, 6.0, 7.0, 8.0, 9.0, 10.0, 11.0, 100.0, 1000.0, 10000.0, 100000.0, 1000000.0, …"
  = Ok [[modulo 10 OpEQ [RValue 0]]; [modulo 10 OpEQ [RRange (mkRange 5 9)]]; [modulo 100 OpEQ [RRange (mkRange 11 14)]]].
Proof. vm_compute. reflexivity. Qed.

(** ** make_pluralrules/tests/test.rs; the first two tests are C66 *)
Definition panics {A} (x : res A) : bool := match x with Panic _ => true | _ => false end.
Definition bad_type (version : string) : bytes := bs
"{
  ""supplemental"": {
    ""version"": {
      ""_number"": ""$Revision: 13898 $"",
      ""_unicodeVersion"": ""10.0.0"",
      ""_cldrVersion"": """ ++ bs version ++ bs """
    },
    ""plurals-type-cardinals"": {
      ""test"": {
        ""pluralRule-count-one"": ""n = 1 @integer 1 @decimal 1.0, 1.00, 1.000, 1.0000"",
        ""pluralRule-count-other"": "" @integer 0, 2~16, 100, 1000, 10000, 100000, 1000000, … @decimal 0.0~0.9, 1.1~1.6, 10.0, 100.0, 1000.0, 10000.0, 100000.0, 1000000.0, …""
      }
    }
  }
}".
Arguments bad_type version%string_scope.
(** test.rs:40-62 *)
Example bad_type_test : generate_rs insertion_sort [bad_type "0"] = Panic "None of the input files provided core data!".
Proof. vm_compute. reflexivity. Qed.
(** test.rs:64-84 *)
Example same_data_cardinal_test :
  generate_rs insertion_sort [trim cardinals33_json; trim cardinals33_json] = Panic "Cannot provide two inputs with the same data!".
Proof. vm_compute. reflexivity. Qed.
Example same_data_ordinal_test :
  generate_rs insertion_sort [trim ordinals33_json; trim ordinals33_json] = Panic "Cannot provide two inputs with the same data!".
Proof. vm_compute. reflexivity. Qed.
(** test.rs:86-125 *)
Example different_version_test :
  generate_rs insertion_sort [bad_type "0"; bad_type "1"] = Panic "All input resources must use the same CLDR version!".
Proof. vm_compute. reflexivity. Qed.

(** ** The benches: no [unwrap] or [expect] in them panics *)
Definition is_ok {A} (x : res A) : bool := match x with Ok _ => true | _ => false end.
(** intl_pluralrules/benches/pluralrules.rs:9-26 *)
Example bench_construct how :
  forallb (fun l => is_ok (created how ORDINAL l) && is_ok (created how CARDINAL l))
    ["uk"; "de"; "sk"; "ar"; "fr"; "it"; "en"; "cs"; "es"; "zh"]%string = true.
Proof. destruct how; vm_compute; reflexivity. Qed.
(** pluralrules.rs:28-65 *)
Example bench_select how :
  forallb (fun z => is_ok (chosen how CARDINAL "pl" (InSigned z)))
    [1; 2; 3; 4; 5; 25; 134; 910293019; 12; 1412; -12; 15; 2931; 31231; 3123; 13231; 91; 0; 231;
     -2; -45; 33; 728; 2; 291; 24; 479; 291; 778; 919; 93; 5090]%Z = true /\
  is_ok (chosen how CARDINAL "pl" (InF64 (lit "5.2"))) = true /\ is_ok (chosen how CARDINAL "pl" (InF64 (lit "-0.2"))) = true /\
  is_ok (chosen how CARDINAL "pl" (InStr (bs "12.06"))) = true.
Proof. destruct how; vm_compute; repeat split. Qed.
(** cldr_pluralrules_parser/benches/parser.rs:8-32 *)
Definition bench_strings : list string := [
  "n % 10 = 0 or n % 10 = 5..9 or n % 100 = 11..14 @integer 0, 5~19, 100, 1000, 10000, 100000, 1000000, … @decimal 0.0, 5.0, 6.0, 7.0, 8.0, 9.0, 10.0, 11.0, 100.0, 1000.0, 10000.0, 100000.0, 1000000.0, …";
  "n % 10 = 2..4 and n % 100 != 12..14 @integer 2~4, 22~24, 32~34, 42~44, 52~54, 62, 102, 1002, … @decimal 2.0, 3.0, 4.0, 22.0, 23.0, 24.0, 32.0, 33.0, 102.0, 1002.0, …";
  "n % 10 = 1 and n % 100 != 11 @integer 1, 21, 31, 41, 51, 61, 71, 81, 101, 1001, … @decimal 1.0, 21.0, 31.0, 41.0, 51.0, 61.0, 71.0, 81.0, 101.0, 1001.0, …";
  "n % 100 = 11..99 @integer 11~26, 111, 1011, … @decimal 11.0, 12.0, 13.0, 14.0, 15.0, 16.0, 17.0, 18.0, 111.0, 1011.0, …"]%string.
Example bench_parser : forallb (fun s => is_ok (parse_plural_condition (bs s)) && is_ok (parse_plural_rule (bs s))) bench_strings = true.
Proof. vm_compute. reflexivity. Qed.
