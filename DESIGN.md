# Formal model of zbraniecki/pluralrules in Rocq/Coq 8.16.1

Three crates are modelled: `intl_pluralrules` (number to plural operands, rule
tables, `create`/`select`), `cldr_pluralrules_parser` (CLDR rule syntax to AST) and
`make_pluralrules` (CLDR JSON to the Rust source of the rule tables, and the command
line program).

## Layout

* Model: `Base`, `F64`, `Operands`, `LangId`, `PluralRules`, `Nom`, `Ast`, `CldrParser`,
  `Tokens`, `GenPr`, `GenRs`, `Json`, `MakeRules`, `Main`, `RustExpr` (syntax, reader and
  evaluator of the Rust fragment found in rules.rs), `Tables` (rules.rs read by that reader), `Target` (which integer literals fit the types of a target).
* Files of the repository as Coq strings, verbatim: `Text*.v`.
* Specifications, independent of the model's helpers: `Utf8` (UTF-8 as encoded scalar values), `Spec` (digits, UTS #35 semantics),
  `SpecR` (real values of floats), `Grammar` (rule syntax), `Cldr`/`Conformance` (the rules
  of the shipped JSON), `FileSpec` (reading a generated file), `FaultSpec` (the faults of an input and their order), `JsonSpec` (JSON and the
  resource it says), `LangSpec` (language identifiers), `WrongSpec` (the numbers each locale gets wrong), `SampleSpec` (the samples of a
  rule text), `ExpSpec` (exponent notation), `CodeSpec` (what generated code tests), `SameSpec` (the parts of a condition that its code shows), `LookSpec` (operands looked at), `InputSpec` (which conversion belongs to which argument type), `TargetSpec` (numbers that must fit in `usize`), `LengthSpec` (locales right for long numbers and large floats), `TextSpec` (float syntax, spellings of locale names), `BehaviourSpec` (tables of periods, classes and
  categories), and the definitions at the head
  of the `*Props` files.
* `Properties1.v` to `Properties49.v`: the property theorems, each with `Print Assumptions`
  and a concrete case (`Example`). Everything else is lemmas.
* `RepoTests.v`: the repository's own tests, doc tests and benches, replayed on the model.

## Trusted base

1. The Coq 8.16.1 kernel (with its virtual machine, used by `vm_compute`).
2. The axioms listed by `Print Assumptions`. Most theorems are closed under the global
   context. Those that speak about real numbers (through Flocq) depend on at most four
   axioms of the standard library: `ClassicalDedekindReals.sig_forall_dec`,
   `ClassicalDedekindReals.sig_not_dec`,
   `FunctionalExtensionality.functional_extensionality_dep`, `Classical_Prop.classic`.
   No axiom is declared here; Flocq 4 is used for its theorems and has no axioms of its own.
3. That the definitions below describe the code. The fixture theorem (C66), the shipped
   file theorem (C52) and `RepoTests.v` check this on everything the repository itself
   checks.

## What is modelled

| code | model | simplifications |
|---|---|---|
| intl_pluralrules/src/operands.rs, all conversions, derived `PartialEq` | `Operands.v`, `OperandsEq.v` | a value of an integer type is the number it denotes; pointer width is a parameter |
| intl_pluralrules/src/lib.rs `create`, `select`, `get_locales`, `get_locale` | `PluralRules.v` | a function pointer is the body of its closure |
| intl_pluralrules/src/rules.rs | `TextRules.v`, `Tables.v`, `RustExpr.v` | read from the file's text by a lexer and a reader with Rust's precedences; `if`/`else`, `==`, `!=`, `<=`, `<`, `>`, `%`, `!`, `&&`, `\|\|`, `contains` on ranges |
| cldr_pluralrules_parser/src/ast.rs, parser.rs, lib.rs | `Ast.v`, `CldrParser.v`, `Nom.v` | newtypes are their contents; pointer width is a parameter |
| make_pluralrules/src/lib.rs | `MakeRules.v` | `sort_unstable_by` is a parameter required only to sort; pointer width is a parameter |
| make_pluralrules/src/parser/gen_pr.rs, gen_rs.rs, plural_category.rs | `GenPr.v`, `GenRs.v` | an operator of several characters is one token |
| make_pluralrules/src/parser/resource.rs | `Json.v`, `JsonSer.v` | `Serialize` with serde_json's compact writer; `Debug` is left out |
| `Debug` of operands, categories and syntax trees | `Debug.v` | the one-line form `{:?}` |
| make_pluralrules/src/main.rs | `Main.v` | after command line parsing; files are a map, I/O failures and rustfmt are parameters |

External code, modelled from its documentation or source because its result is
observable: Rust `core`/`alloc` string functions and integer parsing (`Base.v`);
`f64::from_str` by its contract (correct rounding of the decimal, with the exact
syntax accepted), `Display` of floats by its contract (shortest digits that read back,
closest of those, ties up), float to integer casts (saturating); both published
versions of `slice::binary_search_by`; nom 5 combinators; serde_json's syntax and derived
deserialisation (unknown and repeated fields, `Option`, structs as arrays, escapes,
surrogates; its recursion limit of 128 is not modelled: the typed part of a resource is
4 deep and ignored values are skipped without recursion); `unic_langid` parsing, order and
raw subtags; `proc_macro2`'s printing of token streams in the layout of the fixtures.

Not modelled: clap's command line parsing; rustfmt (C52 compares with rules.rs up to the
changes rustfmt makes, spelled out in `Shipped.v`); `{:#?}`, and `{:?}` of resources; allocation
failure; the `nom` error kinds that lib.rs discards; file system links and concurrent
modification.

## Findings

The code differs from what its documentation or UTS #35 leads one to expect here; each is
a `_refuted` theorem with a witness, next to the strongest version found to hold.

* "--5" is accepted and has n = -5 (C04).
* "15e-1" has v = 0 and i = 1: it is ONE in `en`, where "1.5" is OTHER (C87).
* Integer strings go through `f64`: above 2^53 the operand i is rounded (C06), and
  "1.0000000000000001" is ONE in `af` (C62); i of the `f64` 2^60 is not the integer part of
  its printed digits (C18). "9007199254740993" is TWO in English ordinals, as a `u64` it is
  FEW; the integers and locales concerned are in C122, the rounded fractions in C121.
* `i64` is cast to `isize`: on 32-bit targets large values wrap (C13).
* Numbers of 2^32 or more in a rule text end a value list early on 32-bit machines (C80),
  so a 32-bit machine can generate different code without an error (C95).
* Generated conditions: `n % m = a..b` ignores the modulus, and `n % m = k` uses i (C47);
  `within` and `not within` are not interval tests and not complements (C48, C49; exactly: C123). As a
  consequence some locales do not follow CLDR, the exact list is C30 (how often: C129; which category for which: C130 on integers, C132 on fractions; first and longest runs: C134): on integers, cardinal
  ar ars be br kw lt lv mo mt prg ro and ordinal kw; on fractions only, ordinal be en kk sq
  sv tk uk.
* Parser: "n %10 = 1" is rejected (C36); "n = " is accepted and generates `( )` (C37);
  `parse_plural_condition` ignores trailing text (C39); samples of a rule without condition
  are lost (C42); 1.05 and 1.5 have the same AST (C43);
  `parse_plural_condition` reads "n = 1..99999999999999999999" as "n = 1" (C40).
* Generator: variants are dropped, so ca and ca-valencia collide (C51, C58); "und"
  generates a table that does not compile (C51); a negative CLDR version is emitted as a
  huge number (C53); an unparsable "other" text panics although it is never used (C57).
  Cardinal lt, lv and prg have numbers for which two tests succeed, so their category
  depends on the order of the tests, the alphabetical order of the names (C106).
  A condition is cut off without an error where the parser does not know how to go on, for
  example at an operand of a later CLDR version: "i = 1 and e = 0" becomes `i == 1` (C108).
* An f32 is converted through its own shortest decimal, so 2^30 as an f32 is 1073741800 and
  selects "many" in Russian, as f64 or integer "few" (C109).
* 35 parts of the shipped rules can be left out without changing any category (C120).
* The unformatted output (`--ugly`) spells floats as three tokens, `1 . 0`, which is not
  Rust until rustfmt joins them (C105).
* Program: the output file is truncated before it is written, so a failed run can lose
  the previous output (C69).

## Testing the theorems

`seeded/LOG.jsonl` records edits of the model in the manner of a realistic bug, made in a
scratch copy, and which property theorems stopped being provable. The theorems are those
of the day of the test; later ones are not listed. `predicted` is given where the claims
named before the test were not the claims the edit makes false, `missed` where a claim made
false went unnoticed, `not_built` for theorems of files that were not compiled in that test.

## Plan and outcome per property

"R" in the assumptions column means the four axioms of the reals listed above, or two of them (C87_exponent_refuted), "-" means closed under the global context.

| id | property | plan | status | theorems | assumptions |
|---|---|---|---|---|---|
| C01 | Fractional decimal strings yield exact digit operands | `Operands.v` models `try_from(&str)` on byte strings (slicing with explicit panic, `f64::from_str`, `u64::from_str`); induction on digit lists against `Spec.v` (digit values by positional notation). | proved | `C01_fraction_operands` | - |
| C02 | Operand n is the correctly rounded absolute value | `F64.v` models decimal to binary64 as one correctly rounded division in stdlib `SpecFloat`; proved equal to Flocq's `round ... ZnearestE` on reals via `Bdiv_correct_aux`. | proved | `C02_n_nearest_fraction`, `C02_n_nearest_integer` | R |
| C03 | A leading minus sign never changes the operands | Direct proof on the model of `try_from(&str)` and `select`. | proved | `C03_minus_ignored`, `C03_select_minus` | - |
| C04 | Operand n is never negative | False ("--5"): witness; strongest true version for strings not starting with "--". | partial | `C04_double_minus`, `C04_n_not_negative_partial`, `C04_n_not_negative_refuted` | -; R |
| C05 | Exactly which strings are accepted | `Operands.v` models `try_from(&str)` on byte strings (slicing with explicit panic, `f64::from_str`, `u64::from_str`); induction on digit lists against `Spec.v` (digit values by positional notation). | proved | `C05_accepted_iff`, `C05_accepted_strings` | - |
| C06 | Integer strings give the exact integer operand i | False above 2^53: witness; exact formula; exactness up to 2^53, and exactly for the values with 53 significant bits and for 2^64 - 1. | partial | `C06_exactly`, `C06_integer_string_formula`, `C06_integer_string_partial`, `C06_integer_string_refuted` | -; R |
| C07 | Operands of an accepted string are mutually consistent | `Operands.v` models `try_from(&str)` on byte strings (slicing with explicit panic, `f64::from_str`, `u64::from_str`); induction on digit lists against `Spec.v` (digit values by positional notation). | proved | `C07_operands_consistent` | - |
| C08 | Trailing fraction zeros only affect v and f | `Operands.v` models `try_from(&str)` on byte strings (slicing with explicit panic, `f64::from_str`, `u64::from_str`); induction on digit lists against `Spec.v` (digit values by positional notation). | proved | `C08_append_zero` | R |
| C09 | Leading zeros never change the operands | `Operands.v` models `try_from(&str)` on byte strings (slicing with explicit panic, `f64::from_str`, `u64::from_str`); induction on digit lists against `Spec.v` (digit values by positional notation). | proved | `C09_leading_zero_fraction`, `C09_leading_zero_integer` | - |
| C10 | String conversion never panics | `Operands.v` models `try_from(&str)` on byte strings (slicing with explicit panic, `f64::from_str`, `u64::from_str`); induction on digit lists against `Spec.v` (digit values by positional notation). | proved | `C10_no_panic` | - |
| C11 | Unsigned integers convert exactly | Integer conversions over Z with explicit two's complement wrap, pointer width a parameter. | proved | `C11_unsigned` | R |
| C12 | Signed integers convert to their absolute value | Integer conversions over Z with explicit two's complement wrap, pointer width a parameter. | proved | `C12_signed` | R |
| C13 | Signed conversion does not depend on the pointer width | False: witness; true exactly for values fitting 32 bits. | partial | `C13_exact_range_partial`, `C13_modulo_partial`, `C13_pointer_width_partial`, `C13_pointer_width_refuted` | - |
| C14 | Negating an integer never changes the operands | Integer conversions over Z with explicit two's complement wrap, pointer width a parameter. | proved | `C14_negated_integer` | - |
| C15 | An integer and its decimal spelling give the same operands | Integer conversions over Z with explicit two's complement wrap, pointer width a parameter. | proved | `C15_integer_spelling`, `C15_unsigned_spelling` | R |
| C16 | Every finite float converts successfully | Float `Display` modelled as the shortest round-trip digit search (documented contract of std); 17 digits suffice, proved with Flocq. C18 is false at 2^60 (witness). | proved | `C16_finite_f32_converts`, `C16_finite_f64_converts` | R |
| C17 | Operand n of a float is exactly its absolute value | Float `Display` modelled as the shortest round-trip digit search (documented contract of std); 17 digits suffice, proved with Flocq. C18 is false at 2^60 (witness). | proved | `C17_float_n_exact` | R |
| C18 | Float operands are those of the shortest decimal and have no trailing zeros | Float `Display` modelled as the shortest round-trip digit search (documented contract of std); 17 digits suffice, proved with Flocq. C18 is false at 2^60 (witness). | partial | `C18_shortest_partial`, `C18_shortest_refuted` | R |
| C19 | Negating a float never changes the operands | Float `Display` modelled as the shortest round-trip digit search (documented contract of std); 17 digits suffice, proved with Flocq. C18 is false at 2^60 (witness). | proved | `C19_negated_f32`, `C19_negated_float`, `C19_select_opposite` | R |
| C20 | Infinities and NaN | Float `Display` modelled as the shortest round-trip digit search (documented contract of std); 17 digits suffice, proved with Flocq. C18 is false at 2^60 (witness). | proved | `C20_inf_nan` | - |
| C21 | create succeeds exactly for the listed locales | Both loops that std has used for `binary_search_by`, proved correct on every strictly sorted list; the tables are shown sorted by computation; the order on identifiers is proved total. | proved | `C21_create_iff` | - |
| C22 | create installs the rule listed for that very locale | Both loops that std has used for `binary_search_by`, proved correct on every strictly sorted list; the tables are shown sorted by computation; the order on identifiers is proved total. | proved | `C22_create_rule`, `C22_search_irrelevant` | - |
| C23 | get_locale returns the requested locale | Both loops that std has used for `binary_search_by`, proved correct on every strictly sorted list; the tables are shown sorted by computation; the order on identifiers is proved total. | proved | `C23_get_locale` | - |
| C24 | There is no fallback from a more specific locale | Both loops that std has used for `binary_search_by`, proved correct on every strictly sorted list; the tables are shown sorted by computation; the order on identifiers is proved total. | proved | `C24_no_fallback` | - |
| C25 | get_locales is strictly sorted and equals the CLDR key set | Both loops that std has used for `binary_search_by`, proved correct on every strictly sorted list; the tables are shown sorted by computation; the order on identifiers is proved total. | proved | `C25_locales_of_the_text`, `C25_locales_sorted_and_complete` | - |
| C26 | select fails exactly when the number cannot be converted | `select` over the deep-embedded expressions of rules.rs with a partial evaluator (None = panic or type error); totality by a checker proved sound. | proved | `C26_select_fails_iff`, `C26_select_no_panic` | -; R |
| C27 | Selecting a category never panics | `select` over the deep-embedded expressions of rules.rs with a partial evaluator (None = panic or type error); totality by a checker proved sound. | proved | `C27_rule_total` | - |
| C28 | select only returns categories the locale defines | `select` over the deep-embedded expressions of rules.rs with a partial evaluator (None = panic or type error); totality by a checker proved sound. | proved | `C28_category_defined`, `C28_data_of_text`, `C28_data_unique` | - |
| C29 | select follows the CLDR rules for every locale | Spec: UTS #35 semantics of relations over exact rationals (`Spec.v`). General correctness of generated conditions (C45) plus a syntactic check per locale; computed witnesses for the locales that fail. C29 and C62 are false (witnesses). | partial | `C29_select_follows_cldr_partial`, `C29_select_follows_cldr_refuted` | -; R |
| C30 | Exact list of locales that follow CLDR | Spec: UTS #35 semantics of relations over exact rationals (`Spec.v`). General correctness of generated conditions (C45) plus a syntactic check per locale; computed witnesses for the locales that fail. C29 and C62 are false (witnesses). | proved | `C30_first_list`, `C30_lists_in_table`, `C30_second_list`, `C30_second_list_fails`, `C30_third_list_fails` | -; R |
| C31 | select on u64 follows CLDR without size limit | Spec: UTS #35 semantics of relations over exact rationals (`Spec.v`). General correctness of generated conditions (C45) plus a syntactic check per locale; computed witnesses for the locales that fail. C29 and C62 are false (witnesses). | proved | `C31_i64_follows_cldr`, `C31_u64_follows_cldr` | R |
| C32 | select on f64 follows CLDR for the shortest decimal | Spec: UTS #35 semantics of relations over exact rationals (`Spec.v`). General correctness of generated conditions (C45) plus a syntactic check per locale; computed witnesses for the locales that fail. C29 and C62 are false (witnesses). | proved | `C32_f64_follows_cldr` | R |
| C33 | CLDR conditions of one locale are mutually exclusive | Reduce each pair of conditions of a locale to residues and decide by a proved checker, all distinct rule sets. | proved | `C33_mutually_exclusive`, `C33_unique_category` | - |
| C34 | Printing then parsing a condition is the identity | nom combinators as functions on byte strings; the grammar separately as an inductive relation (`Grammar.v`); completeness, soundness, termination. C36 and C37 are false as stated (witnesses). | proved | `C34_condition_round_trip` | - |
| C35 | Printing then parsing a rule with samples is the identity | nom combinators as functions on byte strings; the grammar separately as an inductive relation (`Grammar.v`); completeness, soundness, termination. C36 and C37 are false as stated (witnesses). | proved | `C35_rule_round_trip` | - |
| C36 | The parser accepts every legal spacing | nom combinators as functions on byte strings; the grammar separately as an inductive relation (`Grammar.v`); completeness, soundness, termination. C36 and C37 are false as stated (witnesses). | partial | `C36_spacing_partial`, `C36_spacing_refuted` | - |
| C37 | parse_plural_rule accepts only CLDR rule syntax | nom combinators as functions on byte strings; the grammar separately as an inductive relation (`Grammar.v`); completeness, soundness, termination. C36 and C37 are false as stated (witnesses). | partial | `C37_accepts_exactly_partial`, `C37_exactly_syntax_partial`, `C37_only_syntax_partial`, `C37_only_syntax_refuted` | - |
| C38 | Rule and condition parsers agree | nom combinators as functions on byte strings; the grammar separately as an inductive relation (`Grammar.v`); completeness, soundness, termination. C36 and C37 are false as stated (witnesses). | proved | `C38_parsers_agree` | - |
| C39 | parse_plural_condition rejects malformed conditions | False (trailing text ignored): witness; the longest beginning that is a condition is what is read. | partial | `C39_accepts_exactly_partial`, `C39_longest_partial`, `C39_rejects_malformed_partial`, `C39_rejects_malformed_refuted` | - |
| C40 | Numbers in a parsed AST fit in usize and ASTs are well formed | nom combinators as functions on byte strings; the grammar separately as an inductive relation (`Grammar.v`); completeness, soundness, termination. C36 and C37 are false as stated (witnesses). | partial | `C40_no_truncation_refuted`, `C40_well_formed_partial` | - |
| C41 | Empty and sample-only rules parse to the empty condition | nom combinators as functions on byte strings; the grammar separately as an inductive relation (`Grammar.v`); completeness, soundness, termination. C36 and C37 are false as stated (witnesses). | proved | `C41_empty_condition` | - |
| C42 | Samples of a rule without condition are reported | False: witness, for every sample-only rule. | partial | `C42_samples_dropped_partial`, `C42_samples_reported_refuted` | - |
| C43 | Sample numbers are represented faithfully | False: witness; true on numerals without leading fraction zeros. | partial | `C43_samples_faithful_partial`, `C43_samples_faithful_refuted` | - |
| C44 | Parsing always terminates without panicking | nom combinators as functions on byte strings; the grammar separately as an inductive relation (`Grammar.v`); completeness, soundness, termination. C36 and C37 are false as stated (witnesses). | proved | `C44_no_panic` | - |
| C45 | Generated conditions mean what the CLDR condition means | Token streams as trees; a reader with Rust's operator precedence for the generated fragment; the value of the expression read is compared with the UTS #35 semantics. | proved | `C45_generated_meaning`, `C45_generated_meaning_u64` | R |
| C46 | Generated code respects Rust operator precedence | Token streams as trees; a reader with Rust's operator precedence for the generated fragment; the value of the expression read is compared with the UTS #35 semantics. | proved | `C46_precedence` | - |
| C47 | Generating a range with modulus on n is correct | False: witnesses, plus the exact meaning of what is generated. | partial | `C47_n_mod_range_formula`, `C47_n_mod_range_partial`, `C47_n_mod_range_refuted` | -; R |
| C48 | within generates an interval test | False: witnesses, plus the exact meaning of what is generated. | partial | `C48_within_first_range`, `C48_within_only_values`, `C48_within_partial`, `C48_within_refuted` | -; R |
| C49 | not within is the negation of within | False: witnesses, plus the exact meaning of what is generated. | partial | `C49_not_within_formula`, `C49_not_within_partial`, `C49_not_within_refuted` | -; R |
| C50 | Generated tables are sorted | `generate_rs` modelled from JSON text to output text; a reader of the output text (`FileSpec.v`); the sort is a parameter. C51, C53, C57 (second half) are false as stated (witnesses). | proved | `C50_tables_sorted` | - |
| C51 | Every locale of the input is generated once, root excepted | `generate_rs` modelled from JSON text to output text; a reader of the output text (`FileSpec.v`); the sort is a parameter. C51, C53, C57 (second half) are false as stated (witnesses). | partial | `C51_one_entry_per_locale_partial`, `C51_one_entry_per_locale_refuted` | - |
| C52 | The shipped rules.rs is what the generator produces | rules.rs and both JSON files embedded verbatim as Coq strings; lexed, generated and compared inside Coq. | proved | `C52_shipped_file` | - |
| C53 | Inputs with different CLDR versions are refused | `generate_rs` modelled from JSON text to output text; a reader of the output text (`FileSpec.v`); the sort is a parameter. C51, C53, C57 (second half) are false as stated (witnesses). | partial | `C53_versions_partial`, `C53_versions_refuted` | - |
| C54 | Duplicate or missing data is refused | `generate_rs` modelled from JSON text to output text; a reader of the output text (`FileSpec.v`); the sort is a parameter. C51, C53, C57 (second half) are false as stated (witnesses). | proved | `C54_duplicate_or_missing` | - |
| C55 | The order of the input files is irrelevant | `generate_rs` modelled from JSON text to output text; a reader of the output text (`FileSpec.v`); the sort is a parameter. C51, C53, C57 (second half) are false as stated (witnesses). | proved | `C55_input_order` | - |
| C56 | The order of keys in the JSON is irrelevant | `generate_rs` modelled from JSON text to output text; a reader of the output text (`FileSpec.v`); the sort is a parameter. C51, C53, C57 (second half) are false as stated (witnesses). | proved | `C56_key_order` | - |
| C57 | OTHER is the fallback | `generate_rs` modelled from JSON text to output text; a reader of the output text (`FileSpec.v`); the sort is a parameter. C51, C53, C57 (second half) are false as stated (witnesses). | partial | `C57_other_is_fallback`, `C57_other_text_exactly`, `C57_other_text_partial`, `C57_other_text_refuted` | - |
| C58 | Distinct locales generate distinct table keys | False (variants dropped): witness; exactly which keys collide. | partial | `C58_distinct_keys_partial`, `C58_distinct_keys_refuted` | - |
| C59 | Raw subtag integers denote the locale | Little-endian base-256 codec, round trip by induction. | proved | `C59_raw_subtags` | - |
| C60 | Integer part of a float | Truncation of a binary float, against Flocq's `Ztrunc`. | proved | `C60_float_integer_part` | R |
| C61 | select on f32 follows CLDR for the shortest decimal | Spec: UTS #35 semantics of relations over exact rationals (`Spec.v`). General correctness of generated conditions (C45) plus a syntactic check per locale; computed witnesses for the locales that fail. C29 and C62 are false (witnesses). | proved | `C61_f32_follows_cldr` | R |
| C62 | select on long numerals follows CLDR | Spec: UTS #35 semantics of relations over exact rationals (`Spec.v`). General correctness of generated conditions (C45) plus a syntactic check per locale; computed witnesses for the locales that fail. C29 and C62 are false (witnesses). | partial | `C62_long_numerals_partial`, `C62_long_numerals_refuted` | -; R |
| C63 | Generated functions follow CLDR end to end | C45 composed with the reading of the whole generated file. | proved | `C63_generated_follows_cldr` | R |
| C64 | Exactly when the generator succeeds | `generate_rs` modelled from JSON text to output text; a reader of the output text (`FileSpec.v`); the sort is a parameter. C51, C53, C57 (second half) are false as stated (witnesses). | proved | `C64_when_it_succeeds` | - |
| C65 | The unstable sort does not matter | `generate_rs` modelled from JSON text to output text; a reader of the output text (`FileSpec.v`); the sort is a parameter. C51, C53, C57 (second half) are false as stated (witnesses). | proved | `C65_any_sort` | - |
| C66 | The generator reproduces the repository's fixtures | The fixture files embedded verbatim; generated text compared byte by byte inside Coq; C65 for the other sorts. | proved | `C66_fixtures_reproduced` | - |
| C67 | Nothing is written unless the code could be generated | `Main.v`: files as a map, the operating system's answers as parameters; case analysis. | proved | `C67_nothing_written_without_code` | - |
| C68 | What a successful run leaves on disk | `Main.v`: files as a map, the operating system's answers as parameters; case analysis. | proved | `C68_success`, `C68_when` | - |
| C69 | A failed run leaves every file as it was | False: witness; exactly what the output file then holds. | partial | `C69_failure_keeps_files_partial`, `C69_failure_keeps_files_refuted` | - |
| C70 | Running the program again reproduces the file | `Main.v`: files as a map, the operating system's answers as parameters; case analysis. | proved | `C70_rerun` | - |
| C71 | Exactly which texts are resources, and what they say | JSON grammar in `JsonSpec.v`; soundness by induction on the parser's fuel, completeness by mutual induction on derivations; sorted maps by uniqueness of sorted lists. | proved | `C71_resources` | - |
| C72 | Exactly which locale keys are accepted, and what they name | Subtag grammar in `LangSpec.v`; each class of subtags is disjoint from the others, so the greedy parser is complete. | proved | `C72_language_identifiers` | - |
| C73 | A rule text has at most one reading | Completeness of the parser (C36) makes the grammar unambiguous; printing is a section of parsing. | proved | `C73_one_reading`, `C73_printing_injective`, `C73_reading_is_parsed` | - |
| C74 | A float and the numeral it was written as select alike | Two decimals with the same rounding are closer than a unit in the last place; few digits leave no room for another (Flocq error bounds). | proved | `C74_f32_and_numeral`, `C74_f64_and_numeral` | R |
| C75 | Integral floats convert like integers | Two decimals with the same rounding are closer than a unit in the last place; few digits leave no room for another (Flocq error bounds). | proved | `C75_integral_floats`, `C75_select` | R |
| C76 | The samples in the CLDR data get their category | `SampleSpec.v` says which numbers a rule text lists; an enumerator proved complete, then every sample is decided inside Coq and C29 carries the result to `select`. False for the locales of C30 (witnesses). | partial | `C76_cldr_consistent`, `C76_samples_exactly`, `C76_samples_partial`, `C76_samples_refuted` | -; R |
| C77 | Equality of operands | Comparison of `spec_float` by cases; induction on the rule expressions. | proved | `C77_equality`, `C77_partial_equivalence`, `C77_same_category` | - |
| C78 | What a failed parse reports | Every parser of samples reads at least any text of its grammar (as C37, C39); maximal readings are then unique. | proved | `C78_condition_error`, `C78_leftover_shown`, `C78_rule_error` | - |
| C79 | Exactly which numbers get a wrong category | CLDR conditions and closures both turned into boolean functions of i, v and f; per locale, the equation with the hand-written description by linear arithmetic over the last digits. | proved | `C79_wrong_exactly`, `C79_wrong_exactly_f32`, `C79_wrong_exactly_f64`, `C79_wrong_exactly_i64`, `C79_wrong_exactly_long`, `C79_wrong_exactly_u64` | R |
| C80 | The rule parser on 32-bit and 64-bit machines | The parsers take the pointer width as a class argument; agreement combinator by combinator; a scan of the shipped texts inside Coq. | partial | `C80_rule_accepted`, `C80_rule_exactly`, `C80_same_answer_partial`, `C80_same_answer_refuted`, `C80_shipped_data` | - |
| C81 | What a failed number conversion reports | Float syntax in `TextSpec.v`; forward and backward lemmas for the float reader; the place of the point is unique. | proved | `C81_conversion_errors` | - |
| C82 | Which locale names get plural rules | Invariance of the subtag grammar under `same_spelling`, and uniqueness of the spelling of an identifier without variants. | proved | `C82_locale_names` | - |
| C83 | The category of an integer repeats with a known period | Closures as functions of an integer; bound and period read off the text, checked against the table on one period inside Coq; minimality by Bezout and a witness for each prime factor of the period. | proved | `C83_cycles` | R |
| C84 | Where the number of trailing zeros matters | Syntactic check that a closure uses v, w, f, t only in `== 0` tests; decimals of one value agree on the rest. Witness pairs for the other locales. | proved | `C84_spelling_irrelevant`, `C84_spelling_matters`, `C84_trailing_zero` | -; R |
| C85 | Which locales have the same rule | Normal form of the closures; equal within a class, separated by a list of numerals between classes. | proved | `C85_same_rule` | - |
| C86 | Every category of a locale is used | Witness numerals; absence over one period plus C83. | proved | `C86_categories_reached` | R |
| C87 | Numbers in exponent notation | Exact value of the saturating exponent counter; beyond the bound both the counted and the true exponent give infinity, or zero when negative. | partial | `C87_exponent_operands`, `C87_exponent_partial`, `C87_exponent_refuted` | R |
| C88 | Locales that are right for numbers of any length | Closures and CLDR conditions without n and without remainders of i cannot tell integer parts above 1000 apart, so any numeral reduces to a short one; witnesses for the rest. | proved | `C88_any_f32`, `C88_any_f64`, `C88_any_length`, `C88_length_matters` | -; R |
| C89 | Locales that are right for floating-point numbers of any size | Below 2^53 by C32 and C61. Above, exact value and printed decimal are even and no test of an unlisted locale separates even remainders (f64); or the decimal is exact in f64, or saturates (f32). | proved | `C89_f32_right`, `C89_f32_wrong`, `C89_f64_right`, `C89_f64_wrong` | R |
| C90 | Operands of every finite f32 | The largest decimal exponent of a 24-bit float above 2^53 is at least 11 or the binary exponent less 29, so the decimal has at most 53 significant bits. | proved | `C90_f32_operands` | R |
| C91 | What the generated condition tests | The pieces of GenFacts.v evaluated one by one; empty lists leave an empty operand of && that the reader refuses. | proved | `C91_empty_list`, `C91_generated_code`, `C91_no_range`, `C91_parsed` | - |
| C92 | What every generated function does | C91 for each arm of the body found by the table reader. | proved | `C92_generated_function`, `C92_no_empty_list` | - |
| C93 | The shipped library computes the formula of its CLDR data, for all inputs | Every arm of rules.rs compared in order with the expression generated from the CLDR condition, inside Coq; then C92. | proved | `C93_select_is_code` | - |
| C94 | Which operands a locale looks at | Sufficiency: operands mentioned by the formula of C93. Necessity: a search for two operand sets inside Coq. | proved | `C94_each_matters`, `C94_only_these` | - |
| C95 | Generated code does not depend on the pointer width of the generating machine | The generator takes the pointer width as a class argument; C80 for each rule text, C64's reading of versions, induction over the loop. The shipped texts are scanned inside Coq. | proved | `C95_bounds_needed`, `C95_same_output`, `C95_shipped_files` | - |
| C96 | Generated code on 32-bit targets | The numbers that meet v or w in the generated expression are those of the condition, by the pieces of C91; C53 for the version. | proved | `C96_condition`, `C96_function`, `C96_shipped`, `C96_targets_differ`, `C96_version` | - |
| C97 | Which locales are hurt by negative exponents | C94 reduces the category to n and i; n is the same nearest float, its floor is i because the float compares with integers as the decimal does. A search for counterexamples for the other locales. | proved | `C97_harmful`, `C97_harmless` | R |
| C98 | The type in which a number is passed makes no difference | Each conversion is computed; C15 for spellings. | proved | `C98_operands`, `C98_signed`, `C98_spelling`, `C98_string` | -; R |
| C99 | A table entry depends on the locale's own rules only | The table is the streams separated by commas (C51); each stream is computed from one locale of the data. A witness function is given. | proved | `C99_entry_locality` | - |
| C100 | How the data is spread over input files is irrelevant | The success condition of C64 mentions only the version number and the list of data of each type. | proved | `C100_spread_over_files` | - |
| C101 | Locales with ordinal rules have cardinal rules | The two lists are compared by computation; C21. | proved | `C101_not_conversely`, `C101_ordinal_locales_have_cardinals` | - |
| C102 | The library over any regenerated rules file | C50 and distinct keys make the table strictly sorted, so the search lemma behind C21 applies to it; C63 and C92 for the functions, C98 and the float lemmas of C32/C61 for the input types. | proved | `C102_any_rules`, `C102_regenerated_library` | -; R |
| C103 | Exactly which relations are generated faithfully | The formula of C91 against uts_relation, case by case; witnesses for the converse; a decision procedure for the shipped rules, and C79 for the locales. | proved | `C103_locales`, `C103_locales_fractions`, `C103_relations` | R |
| C104 | The text of a generated file | Printing distributes over concatenation; the fixed tokens are printed by computation. | proved | `C104_printable`, `C104_text` | - |
| C105 | Where the unformatted output is not yet Rust | Every generated piece neither begins nor ends with a point, so the spelling can only occur inside pieces; induction over the generator. | proved | `C105_conditions`, `C105_files`, `C105_shipped` | - |
| C106 | Where the order in which the categories are tested matters | The tests are written again as CLDR conditions (with the deviations of C103), for which the decision procedure of C33 decides whether two can hold together. | proved | `C106_integers`, `C106_long_numbers_differ`, `C106_one_test`, `C106_order` | -; R |
| C107 | What changed between the CLDR 33 fixture and the shipped tables | Both tables compared function by function inside Coq; the two Romanian functions agree when i = n whenever v = 0. | proved | `C107_fixture`, `C107_update` | -; R |
| C108 | No part of a rule text is dropped silently | C39 gives the reading of a text; the generator is followed as for C57. The list combinator stops where the element parser fails after a separator. | partial | `C108_cldr_files`, `C108_dropped`, `C108_nothing_dropped_refuted`, `C108_readings_partial`, `C108_unreadable_panics` | - |
| C109 | A value passed as f32 selects like the same value passed as f64 or integer | A decimal that rounds to the f64 is within 2^-29 of a unit of the f32, so it rounds to the f32; then the exponents and, by the closeness clause of both, the digits are equal. Below 2^25 + 16 a multiple of ten within half a unit is the value itself. | partial | `C109_bound_sharp`, `C109_exactly`, `C109_same_value_refuted`, `C109_small_partial` | R |
| C110 | Rules with different meanings generate different code | Each relation gives a list of token groups; separators do not occur at the top level of a group, so the groups can be recovered from the tokens and each group determines its test. The parts are given a meaning of their own, which is that of the condition where C103 finds no deviation. | partial | `C110_files`, `C110_meaning_shows_partial`, `C110_meaning_shows_refuted`, `C110_same_code` | - |
| C111 | A resource that is serialised is read back unchanged | The written text is a text of the JSON grammar for a value that is the resource in the sense of JsonSpec; C71 then reads it. | proved | `C111_read_back`, `C111_rewritten`, `C111_same_file` | - |
| C112 | A failed generation reports the first fault of the input | The generator is followed step by step; each step that panics is matched with a fault, each that does not with the absence of faults (C57, C58, C64, C71 say when). | proved | `C112_exactly`, `C112_first_fault`, `C112_ties` | - |
| C113 | What the conversions remember of a number | Texts with a point: i, v and f determine the digits. f64: n is the value. f32: the printed decimals have at most ten digits, so two different ones are further apart than the f64 that both could round to. | partial | `C113_f32`, `C113_f64`, `C113_no_point`, `C113_numerals_exactly`, `C113_numerals_partial`, `C113_numerals_refuted`, `C113_signed`, `C113_signed_32`, `C113_unsigned` | -; R |
| C114 | Rule texts are put together with or and and | Texts that parse are those of the grammar (C37); separated lists can be appended and cut there. | proved | `C114_and`, `C114_or`, `C114_take_apart`, `C114_take_apart_and` | - |
| C115 | What the @integer lists of the CLDR data say | Conditions on integers are periodic from a bound on (ListProps.condition_same): a listed number beyond the bound gives infinitely many; a category with none in one period is finite and is compared with its list. One computation checks all rules of the data. | partial | `C115_complete_exactly`, `C115_complete_partial`, `C115_complete_refuted`, `C115_ellipsis`, `C115_listed`, `C115_select` | -; R |
| C116 | What the @decimal lists of the CLDR data say | For a fixed fraction the conditions are periodic in the integer part from a bound on (DecListProps.condition_same_f); categories without list have 'v = 0' in every alternative, or 'other' is excluded by an alternative 'v != 0', which the generated code tests in the same way. One computation checks all rules of the data. | proved | `C116_decimals`, `C116_ellipsis`, `C116_never`, `C116_ordinal`, `C116_select` | - |
| C117 | Only the last digits of the integer part matter | By cases on the relations of code_select and of uts_relation; n of a string is the nearest f64 of its value, rounding is monotone and exact on integers up to 2^53, so n compares with constants below B as the value does. One computation checks the shipped data. | proved | `C117_cldr`, `C117_code`, `C117_select`, `C117_six`, `C117_three`, `C117_unsigned` | -; R |
| C118 | Finitely much of a number decides its category | An item of a relation on i + f/b is decided by i, its remainder and whether f = 0 (ViewProps.item_form), both in UTS #35 and in the formula of the generated code (C93). stand_in picks a number with the same view and at most three fraction digits. | proved | `C118_cldr`, `C118_inputs`, `C118_select`, `C118_six`, `C118_suite`, `C118_suite_inputs`, `C118_three` | -; R |
| C119 | Debug texts tell values apart | Floats: the shortest digits (C16) with a point or an exponent are parsed to the same real value, and dec_to_float depends only on it. Trees: every printer p satisfies 'code p': p a ++ x = p b ++ y with x, y not beginning with a letter or digit gives a = b and x = y (the condition is needed: Is is a prefix of IsNot, 1 of 10); closed under fields, options and vectors. | proved | `C119_assert`, `C119_category`, `C119_condition`, `C119_n`, `C119_n_float`, `C119_n_plain`, `C119_operands`, `C119_relation`, `C119_rule`, `C119_samples` | -; R |
| C120 | What each part of the shipped rules is for | Idle parts: for each a proof, mostly by the finitely many views of C118; one Cornish relation by arithmetic. Other parts: 77 witnesses, checked by computation against both meanings. | proved | `C120_both`, `C120_cldr`, `C120_inputs`, `C120_select` | -; R |
| C121 | Exactly which numerals of any length get a wrong category | The generated code is evaluated with the integer equal to n, if any, as a separate argument. With it fixed the finitely many views of C118 suffice, so rounded numbers are settled by computation; for numbers rounded to an integer no rule compares with, the code does the same as with n = NaN. | proved | `C121_happens`, `C121_long`, `C121_short` | R |
| C122 | Integers written out in full | The two operand sets differ at most in n, and then both n are above all integers the code compares n with. The list is settled by evaluating the shipped code on seven witnesses or on 1000 in place of any large integer. | proved | `C122_exactly`, `C122_matter`, `C122_read`, `C122_right`, `C122_same` | -; R |
| C123 | Exactly which within relations are generated faithfully | The formula of C91 and uts_relation both depend only on the integer part, reduced, and on whether a fraction follows; integers and numbers x.5 are witnesses for the converse. For v, w, f, t every possible value is met with every integer part. | proved | `C123_modulus`, `C123_not_modulus`, `C123_not_within`, `C123_others`, `C123_others_modulus`, `C123_others_not_within`, `C123_plain`, `C123_relations` | -; R |
| C124 | Rules whose relations are all generated faithfully | Code and meaning agree relation by relation; where a relation is right for integers only, a relation beside it is false for fractions on both sides. Then C91, C92 and the table lookup of C102. | proved | `C124_condition`, `C124_library` | R |
| C125 | Which locales answer alike for integers | Two closures agree everywhere when they agree below the larger bound plus the common period (C83); each entry is compared with the first of its line, and the lines are told apart by twelve integers. | proved | `C125_integers`, `C125_one_locale` | R |
| C126 | select tells apart the locales that CLDR tells apart | Each locale is compared with the first one on its line: for all numbers by writing ranges out, for integers by the periods of C117; the lines are told apart by a few numbers. Then C85 and C125. | proved | `C126_all_numbers`, `C126_classes`, `C126_integers`, `C126_not_conversely`, `C126_select_integers` | -; R |
| C127 | What a generated file tells about its input | The output lexes to the tokens (C51), so the token lists agree; each layer of the file (version, tables, entries, arms) is split off injectively, then C58 and C110. | proved | `C127_meaning`, `C127_read_back` | - |
| C128 | Exactly when two inputs give the same file | One direction is C127 both ways. For the other, both tables are sorted by key and the matched entries are a permutation of one another, so they are the same list. | proved | `C128_keys_needed`, `C128_rules`, `C128_same_file` | - |
| C129 | How often integers get a wrong category | C79 gives the wrong integers; past the start its description only looks at the last digits, so a window can be moved by one without changing the count; the first window is counted. | proved | `C129_counted`, `C129_no_others`, `C129_rates` | -; R |
| C130 | Which categories are taken for which on integers | C129 says which locales have wrong integers; past a bound both the generated body and the CLDR rules repeat, so one period is checked by computation and every u64 is moved into it. | proved | `C130_all_occur`, `C130_confusions` | R |
| C131 | Which categories stop, and after which integer | The arms of a category that stops are false over one period past the bound; a category that goes on is found once past the bound and moved by the period (C83). | proved | `C131_again`, `C131_last` | R |
| C132 | Which categories are taken for which on fractions | C79 says which locales are concerned; with a fraction every test of n is false in CLDR, so the remaining branches of both sides are compared case by case. | proved | `C132_all_occur`, `C132_fractions`, `C132_fractions_f64` | -; R |
| C133 | Categories that stop although CLDR's go on | C131 for select; the CLDR rules repeat past 101 every 100 (RepeatProps); a category that stops in select only would show among the confusions of C130. | proved | `C133_cut_short`, `C133_rightly` | R |
| C134 | The first wrong integer and the longest run of wrong ones | The description of C79 is checked on one period past the start of C129 and moved by the period. | proved | `C134_listed`, `C134_runs` | R |
