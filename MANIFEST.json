{"claims": [
{"property": "C01", "status": "proved", "theorems": ["C01_fraction_operands"], "note": ""},
{"property": "C02", "status": "proved", "theorems": ["C02_n_nearest_fraction", "C02_n_nearest_integer"], "note": ""},
{"property": "C03", "status": "proved", "theorems": ["C03_minus_ignored", "C03_select_minus"], "note": ""},
{"property": "C04", "status": "partial", "theorems": ["C04_double_minus", "C04_n_not_negative_partial", "C04_n_not_negative_refuted"], "note": "REFUTED as stated: \"--5\" gives n = -5 (and \"-+\" forms are accepted); witness theorem plus the strongest true version (strings not starting with two minus signs)."},
{"property": "C05", "status": "proved", "theorems": ["C05_accepted_iff", "C05_accepted_strings"], "note": ""},
{"property": "C06", "status": "partial", "theorems": ["C06_exactly", "C06_integer_string_formula", "C06_integer_string_partial", "C06_integer_string_refuted"], "note": "REFUTED as stated: integer strings go through f64, so 2^53+1 loses its last digit; witness, exact formula, exactness for values up to 2^53, and (C06_exactly) the values below 2^64 for which the claim holds: those with at most 53 significant bits, and 2^64 - 1."},
{"property": "C07", "status": "proved", "theorems": ["C07_operands_consistent"], "note": ""},
{"property": "C08", "status": "proved", "theorems": ["C08_append_zero"], "note": ""},
{"property": "C09", "status": "proved", "theorems": ["C09_leading_zero_fraction", "C09_leading_zero_integer"], "note": ""},
{"property": "C10", "status": "proved", "theorems": ["C10_no_panic"], "note": ""},
{"property": "C11", "status": "proved", "theorems": ["C11_unsigned"], "note": ""},
{"property": "C12", "status": "proved", "theorems": ["C12_signed"], "note": ""},
{"property": "C13", "status": "partial", "theorems": ["C13_exact_range_partial", "C13_modulo_partial", "C13_pointer_width_partial", "C13_pointer_width_refuted"], "note": "REFUTED as stated: i64 is converted through isize, so values outside 32 bits wrap on 32-bit targets; witness. Proved: the two targets agree exactly on -2^31 < z < 2^31, and elsewhere the value is taken modulo 2^32."},
{"property": "C14", "status": "proved", "theorems": ["C14_negated_integer"], "note": ""},
{"property": "C15", "status": "proved", "theorems": ["C15_integer_spelling", "C15_unsigned_spelling"], "note": ""},
{"property": "C16", "status": "proved", "theorems": ["C16_finite_f32_converts", "C16_finite_f64_converts"], "note": ""},
{"property": "C17", "status": "proved", "theorems": ["C17_float_n_exact"], "note": ""},
{"property": "C18", "status": "partial", "theorems": ["C18_shortest_partial", "C18_shortest_refuted"], "note": "REFUTED as stated: i of the f64 2^60 is not the integer part of its shortest decimal; witness, and proved for magnitudes below 2^53. The decimal is the shortest, and the closest among those with no more places."},
{"property": "C19", "status": "proved", "theorems": ["C19_negated_f32", "C19_negated_float", "C19_select_opposite"], "note": ""},
{"property": "C20", "status": "proved", "theorems": ["C20_inf_nan"], "note": ""},
{"property": "C21", "status": "proved", "theorems": ["C21_create_iff"], "note": ""},
{"property": "C22", "status": "proved", "theorems": ["C22_create_rule", "C22_search_irrelevant"], "note": ""},
{"property": "C23", "status": "proved", "theorems": ["C23_get_locale"], "note": ""},
{"property": "C24", "status": "proved", "theorems": ["C24_no_fallback"], "note": ""},
{"property": "C25", "status": "proved", "theorems": ["C25_locales_of_the_text", "C25_locales_sorted_and_complete"], "note": "The order is the dictionary order of the four parts, defined in LangOrder.v without the comparison of the model. C25_locales_of_the_text reads the keys from the JSON text with the grammars resource_text and names_id, not with the model's parsers."},
{"property": "C26", "status": "proved", "theorems": ["C26_select_fails_iff", "C26_select_no_panic"], "note": ""},
{"property": "C27", "status": "proved", "theorems": ["C27_rule_total"], "note": ""},
{"property": "C28", "status": "proved", "theorems": ["C28_category_defined", "C28_data_of_text", "C28_data_unique"], "note": ""},
{"property": "C29", "status": "partial", "theorems": ["C29_select_follows_cldr_partial", "C29_select_follows_cldr_refuted"], "note": "REFUTED as stated: e.g. Arabic 103 is FEW in CLDR, select gives OTHER. The partial theorem covers every other locale (and the integers for locales wrong on fractions only) for numerals below 2^53 as digit strings with at most 307 fraction digits; C30 shows the exceptions are all real."},
{"property": "C30", "status": "proved", "theorems": ["C30_first_list", "C30_lists_in_table", "C30_second_list", "C30_second_list_fails", "C30_third_list_fails"], "note": "The three lists: get_locales minus the two explicit lists fraction_wrong and integer_wrong; each member of those has a witness. Positive side for numerals whose digits, read as one integer, are below 2^53 with at most 307 fraction digits (see C61 for what happens beyond)."},
{"property": "C31", "status": "proved", "theorems": ["C31_i64_follows_cldr", "C31_u64_follows_cldr"], "note": ""},
{"property": "C32", "status": "proved", "theorems": ["C32_f64_follows_cldr"], "note": ""},
{"property": "C33", "status": "proved", "theorems": ["C33_mutually_exclusive", "C33_unique_category"], "note": "Proved by a verified unsatisfiability check run on the shipped data; also that the CLDR category of a number is unique."},
{"property": "C34", "status": "proved", "theorems": ["C34_condition_round_trip"], "note": "Printed with the canonical printer of Grammar.v; the tree must have non-empty lists and 64-bit values."},
{"property": "C35", "status": "proved", "theorems": ["C35_rule_round_trip"], "note": ""},
{"property": "C36", "status": "partial", "theorems": ["C36_spacing_partial", "C36_spacing_refuted"], "note": "REFUTED as stated: \"n %10 = 1\" (no blank after '%'), blanks at either end or around '..' are rejected. Proved for every spacing of the grammar in Grammar.v."},
{"property": "C37", "status": "partial", "theorems": ["C37_accepts_exactly_partial", "C37_exactly_syntax_partial", "C37_only_syntax_partial", "C37_only_syntax_refuted"], "note": "REFUTED as stated: \"n = \" is accepted with an empty value list. Proved: exactly what is accepted (the grammar, or a condition whose last relation has no values and nothing after it, or a text without condition), with the tree that is returned."},
{"property": "C38", "status": "proved", "theorems": ["C38_parsers_agree"], "note": ""},
{"property": "C39", "status": "partial", "theorems": ["C39_accepts_exactly_partial", "C39_longest_partial", "C39_rejects_malformed_partial", "C39_rejects_malformed_refuted"], "note": "REFUTED as stated: \"n = 1 garbage\" is accepted. Proved: exactly what is accepted and returned (the longest beginning of the text that is a condition, its last relation possibly without values)."},
{"property": "C40", "status": "partial", "theorems": ["C40_no_truncation_refuted", "C40_well_formed_partial"], "note": "Last clause REFUTED for parse_plural_condition (\"n = 1..99999999999999999999\" gives n = 1). Proved: all numbers fit, no or/and part is empty, and parse_plural_rule rejects any text with an oversize digit run."},
{"property": "C41", "status": "proved", "theorems": ["C41_empty_condition"], "note": ""},
{"property": "C42", "status": "partial", "theorems": ["C42_samples_dropped_partial", "C42_samples_reported_refuted"], "note": "REFUTED for every sample-only rule: the samples are dropped. Proved that such a rule is accepted with the empty condition and no samples."},
{"property": "C43", "status": "partial", "theorems": ["C43_samples_faithful_partial", "C43_samples_faithful_refuted"], "note": "REFUTED as stated: 1.5 and 1.05 give the same tree. Proved: equal trees iff the integer digits and the fraction digits denote equal naturals; injective without leading zeros."},
{"property": "C44", "status": "proved", "theorems": ["C44_no_panic"], "note": ""},
{"property": "C45", "status": "proved", "theorems": ["C45_generated_meaning", "C45_generated_meaning_u64"], "note": ""},
{"property": "C46", "status": "proved", "theorems": ["C46_precedence"], "note": ""},
{"property": "C47", "status": "partial", "theorems": ["C47_n_mod_range_formula", "C47_n_mod_range_partial", "C47_n_mod_range_refuted"], "note": "REFUTED as stated: the generated test ignores the modulus; exact formula proved, and correctness under the hypothesis that the value is at most m."},
{"property": "C48", "status": "partial", "theorems": ["C48_within_first_range", "C48_within_only_values", "C48_within_partial", "C48_within_refuted"], "note": "REFUTED as stated: only the first range of a within list is used, a list of plain values panics, and a non-n operand with modulus reads i; correct for operand n without modulus and one range. C123 says exactly when it is right."},
{"property": "C49", "status": "partial", "theorems": ["C49_not_within_formula", "C49_not_within_partial", "C49_not_within_refuted"], "note": "REFUTED as stated: 'not within a..b' generates a > x && x > b, false whenever a <= b; exact formula proved; C123 says exactly when it is right."},
{"property": "C50", "status": "proved", "theorems": ["C50_tables_sorted"], "note": "For every sorting function that returns a sorted permutation (in the order of LangOrder.v, defined without the model's comparison); keys are read back from the output text."},
{"property": "C51", "status": "partial", "theorems": ["C51_one_entry_per_locale_partial", "C51_one_entry_per_locale_refuted"], "note": "REFUTED as stated: the entry of \"ca-valencia\" is for \"ca\", and a key \"und\" makes the table unreadable. Proved: one entry per key other than root, for its identifier without variants, when every key has a language; no table when no input has the data."},
{"property": "C52", "status": "proved", "theorems": ["C52_shipped_file"], "note": "Token equality up to the listed rustfmt changes (trailing commas, doubled parentheses, braces of a closure whose body is a path, 1 . 0 against 1.0, two use items exchanged), for every sorting function; also equal version and tables as read by the reader of RustExpr.v."},
{"property": "C53", "status": "partial", "theorems": ["C53_versions_partial", "C53_versions_refuted"], "note": "REFUTED as stated for negative versions: \"-1\" is emitted as 18446744073709551615. Proved: differing versions panic, and the emitted number is the common version modulo 2^64, so itself when not negative."},
{"property": "C54", "status": "proved", "theorems": ["C54_duplicate_or_missing"], "note": ""},
{"property": "C55", "status": "proved", "theorems": ["C55_input_order"], "note": ""},
{"property": "C56", "status": "proved", "theorems": ["C56_key_order"], "note": "For every reordering of the members of JSON objects with distinct keys, at any depth."},
{"property": "C57", "status": "partial", "theorems": ["C57_other_is_fallback", "C57_other_text_exactly", "C57_other_text_partial", "C57_other_text_refuted"], "note": "First sentence proved. Second sentence REFUTED: an 'other' text that does not parse panics. Proved exactly: if the texts of 'other' rules are replaced by any others, the output is the same when all of them parse, and otherwise the generator panics; for every sorting function that looks at keys only."},
{"property": "C58", "status": "partial", "theorems": ["C58_distinct_keys_partial", "C58_distinct_keys_refuted"], "note": "REFUTED as stated: ca and ca-valencia give the same key. Proved: keys collide exactly when the identifiers differ in variants only."},
{"property": "C59", "status": "proved", "theorems": ["C59_raw_subtags"], "note": ""},
{"property": "C60", "status": "proved", "theorems": ["C60_float_integer_part"], "note": ""},
{"property": "C61", "status": "proved", "theorems": ["C61_f32_follows_cldr"], "note": ""},
{"property": "C62", "status": "partial", "theorems": ["C62_long_numerals_partial", "C62_long_numerals_refuted"], "note": "REFUTED as stated: \"1.0000000000000001\" rounds to 1.0, Afrikaans gives ONE instead of OTHER. The partial theorem covers every numeral whose nearest f64 is an integer only if the numeral is."},
{"property": "C63", "status": "proved", "theorems": ["C63_generated_follows_cldr"], "note": "The relations counted as supported are exactly those of Conformance.v (modulus only without ranges on n, no within, non-empty lists)."},
{"property": "C64", "status": "proved", "theorems": ["C64_when_it_succeeds"], "note": ""},
{"property": "C65", "status": "proved", "theorems": ["C65_any_sort"], "note": ""},
{"property": "C66", "status": "proved", "theorems": ["C66_fixtures_reproduced"], "note": "Byte for byte; the sorting function is any that sorts."},
{"property": "C67", "status": "proved", "theorems": ["C67_nothing_written_without_code"], "note": "Files are a map from paths to contents; clap is not modelled."},
{"property": "C68", "status": "proved", "theorems": ["C68_success", "C68_when"], "note": ""},
{"property": "C69", "status": "partial", "theorems": ["C69_failure_keeps_files_partial", "C69_failure_keeps_files_refuted"], "note": "REFUTED as stated: File::create truncates the output before write_all, so a failed write (or a missing rustfmt) loses the previous file. Proved: every other file is kept, and exactly what the output then holds."},
{"property": "C70", "status": "proved", "theorems": ["C70_rerun"], "note": ""},
{"property": "C71", "status": "proved", "theorems": ["C71_resources"], "note": "The grammar and the meaning of the fields are in JsonSpec.v, without the parser. serde_json itself is modelled, not verified."},
{"property": "C72", "status": "proved", "theorems": ["C72_language_identifiers"], "note": "unic_langid is an external crate; its parser is modelled from its documentation."},
{"property": "C73", "status": "proved", "theorems": ["C73_one_reading", "C73_printing_injective", "C73_reading_is_parsed"], "note": ""},
{"property": "C74", "status": "proved", "theorems": ["C74_f32_and_numeral", "C74_f64_and_numeral"], "note": "Bounds: at most 15 significant digits are below 2^52 (6 below 2^23), at most 307 (37) decimals; examples beside the theorems show that the bound on the digits is needed."},
{"property": "C75", "status": "proved", "theorems": ["C75_integral_floats", "C75_select"], "note": ""},
{"property": "C76", "status": "partial", "theorems": ["C76_cldr_consistent", "C76_samples_exactly", "C76_samples_partial", "C76_samples_refuted"], "note": "First half proved for every sample of both files. Second half REFUTED: each of the locales integer_wrong (11 cardinal, 1 ordinal, see C30) has a sample that select puts in another category. Proved for all other locales, and for all locales that a sample goes wrong exactly when it is in the set of C79."},
{"property": "C77", "status": "proved", "theorems": ["C77_equality", "C77_partial_equivalence", "C77_same_category"], "note": "The derived PartialEq is modelled field by field."},
{"property": "C78", "status": "proved", "theorems": ["C78_condition_error", "C78_leftover_shown", "C78_rule_error"], "note": "Exact in both directions, with the leftover text."},
{"property": "C79", "status": "proved", "theorems": ["C79_wrong_exactly", "C79_wrong_exactly_f32", "C79_wrong_exactly_f64", "C79_wrong_exactly_i64", "C79_wrong_exactly_long", "C79_wrong_exactly_u64"], "note": "The description (WrongSpec.v) is written by hand; the equivalence is proved for every locale, so C29 and C31 without their restriction to locales become exact."},
{"property": "C80", "status": "partial", "theorems": ["C80_rule_accepted", "C80_rule_exactly", "C80_same_answer_partial", "C80_same_answer_refuted", "C80_shipped_data"], "note": "REFUTED as stated: \"n = 1,4294967296\" is [1] on a 32-bit machine and [1; 4294967296] on a 64-bit one for parse_plural_condition, and rejected/accepted by parse_plural_rule. Proved for texts with numbers below 2^32 and for all shipped rules; rules accepted with 32 bits are accepted with 64, same tree, and those accepted with 64 are accepted with 32 exactly when no number is 2^32 or more (a text with samples only is accepted in any case)."},
{"property": "C81", "status": "proved", "theorems": ["C81_conversion_errors"], "note": "Exact in both directions for each of the two messages."},
{"property": "C82", "status": "proved", "theorems": ["C82_locale_names"], "note": "Composition of C21, C25 and C72 with the comparison of spellings."},
{"property": "C83", "status": "proved", "theorems": ["C83_cycles"], "note": "The table is in BehaviourSpec.v. Minimality is stated below 2^40 so that the compared numbers fit in u64."},
{"property": "C84", "status": "proved", "theorems": ["C84_spelling_irrelevant", "C84_spelling_matters", "C84_trailing_zero"], "note": "Integers without a point above 2^53 are rounded (C06) and excluded from C84_spelling_irrelevant; the Example C84_bound shows that this is needed. No other bound."},
{"property": "C85", "status": "proved", "theorems": ["C85_same_rule"], "note": "The class ff fr hy kab pt has two different texts with the same meaning."},
{"property": "C86", "status": "proved", "theorems": ["C86_categories_reached"], "note": "Upper bound (no other category) is C28."},
{"property": "C87", "status": "partial", "theorems": ["C87_exponent_operands", "C87_exponent_partial", "C87_exponent_refuted"], "note": "REFUTED as stated: \"15e-1\" is ONE in en (v = 0, i = 1), \"1.5\" is OTHER. Proved for exponents that are not negative, of any size; the operands are described for both signs (negative: exponent below 65536 or at most 65000 digits for the value of n, because the exponent counter of the standard library saturates)."},
{"property": "C88", "status": "proved", "theorems": ["C88_any_f32", "C88_any_f64", "C88_any_length", "C88_length_matters"], "note": "Exact: the complement of the list consists of locales with a witness. Danish tests n == 1 and is on the list because its other test agrees wherever n is rounded to 1."},
{"property": "C89", "status": "proved", "theorems": ["C89_f32_right", "C89_f32_wrong", "C89_f64_right", "C89_f64_wrong"], "note": "Exact for both widths. C32 and C61 have the smaller range below 2^53, C88 the smaller list of locales that are also right for long strings."},
{"property": "C90", "status": "proved", "theorems": ["C90_f32_operands"], "note": "0.0 prints as 0; its operands are in C16 to C20."},
{"property": "C91", "status": "proved", "theorems": ["C91_empty_list", "C91_generated_code", "C91_no_range", "C91_parsed"], "note": "Complete: every condition falls in one of the three cases. C47 to C49 are instances."},
{"property": "C92", "status": "proved", "theorems": ["C92_generated_function", "C92_no_empty_list"], "note": "C63 follows CLDR where the formula and UTS #35 agree; C92 says what is computed where they do not."},
{"property": "C93", "status": "proved", "theorems": ["C93_select_is_code"], "note": "C29 and C30 compare the same formula with UTS #35."},
{"property": "C94", "status": "proved", "theorems": ["C94_each_matters", "C94_only_these"], "note": "Agreement on n means the same floating-point value (0 and -0 differ). The table is exact."},
{"property": "C95", "status": "proved", "theorems": ["C95_bounds_needed", "C95_same_output", "C95_shipped_files"], "note": "All theorems about generate_rs and main (C50 to C57, C63 to C65, C67 to C70, C92) hold for both widths of the generating machine."},
{"property": "C96", "status": "proved", "theorems": ["C96_condition", "C96_function", "C96_shipped", "C96_targets_differ", "C96_version"], "note": "An integer literal beyond its type is a deny-by-default lint of rustc, counted as an error."},
{"property": "C97", "status": "proved", "theorems": ["C97_harmful", "C97_harmless"], "note": "The bound on digits is that of C29."},
{"property": "C98", "status": "proved", "theorems": ["C98_operands", "C98_signed", "C98_spelling", "C98_string"], "note": "Added after a seeded change to the String conversion inside select went unnoticed by C29."},
{"property": "C99", "status": "proved", "theorems": ["C99_entry_locality"], "note": "Entries are read back from the output text by the lexer and split at the top-level commas of the table."},
{"property": "C100", "status": "proved", "theorems": ["C100_spread_over_files"], "note": "The panic messages may differ when both panic."},
{"property": "C101", "status": "proved", "theorems": ["C101_not_conversely", "C101_ordinal_locales_have_cardinals"], "note": ""},
{"property": "C102", "status": "proved", "theorems": ["C102_any_rules", "C102_regenerated_library"], "note": "The table is the one the reader of RustExpr.v finds in the output text. C102_any_rules covers rules outside the supported relations, with the formula of C91/C92."},
{"property": "C103", "status": "proved", "theorems": ["C103_locales", "C103_locales_fractions", "C103_relations"], "note": "The locales he and iw are wrong for no further numeral because their unfaithful relation is guarded by another one of the same condition. within is covered by C91/C92."},
{"property": "C104", "status": "proved", "theorems": ["C104_printable", "C104_text"], "note": "The entries of the tables are described by C56, C63 and C99."},
{"property": "C105", "status": "proved", "theorems": ["C105_conditions", "C105_files", "C105_shipped"], "note": "A description, not a guarantee: the unformatted output for the shipped data would not compile. That rustc rejects the spelling is not modelled, only the spelling."},
{"property": "C106", "status": "proved", "theorems": ["C106_integers", "C106_long_numbers_differ", "C106_one_test", "C106_order"], "note": "Read exactly: numerals below 2^53 in all digits, or with an integer part below 2^53 and a fraction that survives rounding; u64, i64; finite floats below 2^53. C106_long_numbers_differ shows that the restriction is needed."},
{"property": "C107", "status": "proved", "theorems": ["C107_fixture", "C107_update"], "note": "The fixture is what the generator makes of the CLDR 33 JSON (C66). In CLDR the change to ro concerns numbers such as 101, which the generated code never treated as CLDR 33 said."},
{"property": "C108", "status": "partial", "theorems": ["C108_cldr_files", "C108_dropped", "C108_nothing_dropped_refuted", "C108_readings_partial", "C108_unreadable_panics"], "note": "REFUTED as stated: a rule \"i = 1 and e = 0\" is generated like \"i = 1\". Proved: the output depends on the longest beginning of each rule text that is a condition, and on nothing after it; everything from an 'and' or 'or' that is not followed by a known operand is dropped; a text of which nothing can be read makes the generator panic (the French rule of CLDR 38 starts with e, so it does)."},
{"property": "C109", "status": "partial", "theorems": ["C109_bound_sharp", "C109_exactly", "C109_same_value_refuted", "C109_small_partial"], "note": "REFUTED as stated: the conversion goes through to_string, which prints the shortest decimal for the type. The f32 2^30 is 1073741800 and selects many in Russian, the f64 and the integer select few. Proved: the operands agree exactly when the f32's operand n is the f64 of the same value; every integral f32 below 2^25 + 16 gives the integer's operands, and 2^25 + 16 itself does not."},
{"property": "C110", "status": "partial", "theorems": ["C110_files", "C110_meaning_shows_partial", "C110_meaning_shows_refuted", "C110_same_code"], "note": "REFUTED as stated: \"n % 10 = 2..4\" and \"i = 2..4\" give the same file but differ on 12. Proved: two complete conditions give the same code exactly when they have the same parts (SameSpec), inputs with the same parts give the same file, and for conditions without a deviation in the sense of C103 (and, with within, a single range and no operand lost to a modulus) the same code implies the same meaning, for all decimal numbers or for all integers, without bounds on the numbers. The example shows a within whose operand is lost."},
{"property": "C111", "status": "proved", "theorems": ["C111_read_back", "C111_rewritten", "C111_same_file"], "note": "The derived Serialize is not used by the crate; it is modelled with serde_json's compact writer."},
{"property": "C112", "status": "proved", "theorems": ["C112_exactly", "C112_first_fault", "C112_ties"], "note": "Messages are recorded without the debug form of the error that `unwrap` and `expect` append; an index out of bounds without its numbers."},
{"property": "C113", "status": "partial", "theorems": ["C113_f32", "C113_f64", "C113_no_point", "C113_numerals_exactly", "C113_numerals_partial", "C113_numerals_refuted", "C113_signed", "C113_signed_32", "C113_unsigned"], "note": "False of integer texts from 2^53 on (C113_numerals_refuted); C113_numerals_exactly says which texts collide. Closed for u64, i64, f64, f32."},
{"property": "C114", "status": "proved", "theorems": ["C114_and", "C114_or", "C114_take_apart", "C114_take_apart_and"], "note": ""},
{"property": "C115", "status": "partial", "theorems": ["C115_complete_exactly", "C115_complete_partial", "C115_complete_refuted", "C115_ellipsis", "C115_listed", "C115_select"], "note": "C115_ellipsis and C115_listed hold of all the data. Completeness is false of one list (C115_complete_refuted): Central Atlas Tamazight (tzm) lists 0, 1, 11~24 without ellipsis although its rule includes 11 to 99; C115_complete_exactly says that 25 to 99 are the only numbers missing from any list without ellipsis, C115_complete_partial is the statement for the other locales. C115_select carries it to PluralRules::select, outside the locales whose integers are classified wrongly (integer_wrong, C29). The texts of the category other are lists without a condition, which the parser drops (C42); their lists are read with a condition put in front (list_text)."},
{"property": "C116", "status": "proved", "theorems": ["C116_decimals", "C116_ellipsis", "C116_never", "C116_ordinal", "C116_select"], "note": "C116_never also covers hand-made operands and strings of any length: it rests on the formula the shipped functions compute (C93). The texts of the category other are read as in C115."},
{"property": "C117", "status": "proved", "theorems": ["C117_cldr", "C117_code", "C117_select", "C117_six", "C117_three", "C117_unsigned"], "note": "C83 has the exact periods, for integers; here numbers with fractions are covered as well, and any rules. The ranges that follow n with a modulus count as unreduced because the generated code ignores the modulus there (C47). C117_select says nothing of strings that are rejected."},
{"property": "C118", "status": "proved", "theorems": ["C118_cldr", "C118_inputs", "C118_select", "C118_six", "C118_suite", "C118_suite_inputs", "C118_three"], "note": "viewed excludes within and not within, of which the shipped data has none, and rules on w. 'proper' says that the fraction digits are digits."},
{"property": "C119", "status": "proved", "theorems": ["C119_assert", "C119_category", "C119_condition", "C119_n", "C119_n_float", "C119_n_plain", "C119_operands", "C119_relation", "C119_rule", "C119_samples"], "note": "Only the one-line form {:?} is modelled, not {:#?}. 'valid64' is the invariant of the float type."},
{"property": "C120", "status": "proved", "theorems": ["C120_both", "C120_cldr", "C120_inputs", "C120_select"], "note": "The changed code is the meaning of the generated code (code_select, C93) on the changed rules. A whole condition with one relation, or a relation with one list item, counts as one part."},
{"property": "C121", "status": "proved", "theorems": ["C121_happens", "C121_long", "C121_short"], "note": "Makes C62 and the long part of C79 exact: no hypothesis that fractions survive. Integers without a point above 2^53 are in C122."},
{"property": "C122", "status": "proved", "theorems": ["C122_exactly", "C122_matter", "C122_read", "C122_right", "C122_same"], "note": "With C121 every accepted decimal numeral is covered: C121 has those with a point or at most 2^53, C122 those without a point. English ordinals: the text 9007199254740993 is TWO, the u64 is FEW."},
{"property": "C123", "status": "proved", "theorems": ["C123_modulus", "C123_not_modulus", "C123_not_within", "C123_others", "C123_others_modulus", "C123_others_not_within", "C123_plain", "C123_relations"], "note": "Complements C103, which has the other operators, and makes C48 and C49 exact."},
{"property": "C124", "status": "proved", "theorems": ["C124_condition", "C124_library"], "note": "C45 and C102 with the exact criteria for relations in place of a list of supported forms. For a single relation the criterion is also necessary (C103, C123)."},
{"property": "C125", "status": "proved", "theorems": ["C125_integers", "C125_one_locale"], "note": "C85 is the finer table for all numbers, within one rule type."},
{"property": "C126", "status": "proved", "theorems": ["C126_all_numbers", "C126_classes", "C126_integers", "C126_not_conversely", "C126_select_integers"], "note": "C126_not_conversely is the witness of the stated exception. C126_integers gives the CLDR side as a table."},
{"property": "C127", "status": "proved", "theorems": ["C127_meaning", "C127_read_back"], "note": "Converse of C110_files. same_rule mentions the code and, where no list is empty, the parts of SameSpec.v. Applied both ways it matches the locales of both inputs."},
{"property": "C128", "status": "proved", "theorems": ["C128_keys_needed", "C128_rules", "C128_same_file"], "note": "Completes C127 and C110_files to an equivalence that needs neither the same number of input files nor the same sort. C128_keys_needed is the witness that the condition on the keys cannot be dropped."},
{"property": "C129", "status": "proved", "theorems": ["C129_counted", "C129_no_others", "C129_rates"], "note": "wrong_at compares select with the CLDR rules of the shipped JSON; counted is existence of a duplicate-free list of exactly the numbers meant."},
{"property": "C130", "status": "proved", "theorems": ["C130_all_occur", "C130_confusions"], "note": "The table pairs the CLDR category with select's answer; both directions are proved, so the table is exact."},
{"property": "C131", "status": "proved", "theorems": ["C131_again", "C131_last"], "note": "The table is about what select answers; for be, lt, ar and others the categories stop because the generated conditions are misread (C79), CLDR's do not."},
{"property": "C132", "status": "proved", "theorems": ["C132_all_occur", "C132_fractions", "C132_fractions_f64"], "note": "Companion of C130 for numbers that are not integers; the table is exact, both directions are proved."},
{"property": "C133", "status": "proved", "theorems": ["C133_cut_short", "C133_rightly"], "note": "Contrasts the table of C131 with the CLDR rules of the shipped JSON."},
{"property": "C134", "status": "proved", "theorems": ["C134_listed", "C134_runs"], "note": "wrong_at is that of C129: it compares select with the CLDR rules of the shipped JSON."}
]}
