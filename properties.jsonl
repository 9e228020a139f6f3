{"id": "C01", "title": "Fractional decimal strings yield exact digit operands", "statement": "Converting a plain decimal numeral with a decimal point, [-]I.F with I and F non-empty digit strings whose values fit in 64 bits, succeeds and gives i = value of I, v = number of digits of F, f = value of F, w = number of digits of F without trailing zeros, t = value of those digits.", "quantifier": "all digit strings I and F of any length whose values are below 2^64, with or without a leading minus", "why_tests_cant": "infinitely many strings; tests list a dozen", "anchors": ["intl_pluralrules/src/operands.rs: TryFrom<&str> for PluralOperands::try_from"]}
{"id": "C02", "title": "Operand n is the correctly rounded absolute value", "statement": "For every plain decimal numeral accepted by the conversion, operand n is the binary64 number nearest (ties to even) to the exact decimal value without its sign, and +infinity exactly when that value rounds beyond the largest finite binary64.", "quantifier": "all plain decimal numerals of any length", "why_tests_cant": "rounding must be right for every decimal expansion", "anchors": ["intl_pluralrules/src/operands.rs: TryFrom<&str>::try_from (f64::from_str)"]}
{"id": "C03", "title": "A leading minus sign never changes the operands", "statement": "For every string s that does not itself start with '-', converting \"-\"+s gives exactly the same result (operands or error) as converting s, so select gives the same category for both.", "quantifier": "all strings", "why_tests_cant": "all strings", "anchors": ["intl_pluralrules/src/operands.rs: TryFrom<&str>::try_from (starts_with('-'))", "intl_pluralrules/src/lib.rs: PluralRules::select"]}
{"id": "C04", "title": "Operand n is never negative", "statement": "Whenever a string is accepted, operand n is not negative (it is documented as the absolute value of the input).", "quantifier": "all strings", "why_tests_cant": "all strings, including odd ones such as doubled signs", "anchors": ["intl_pluralrules/src/operands.rs: PluralOperands.n, TryFrom<&str>::try_from"]}
{"id": "C05", "title": "Exactly which strings are accepted", "statement": "A string is converted successfully if and only if, after removing one optional leading '-', it is (a) a number without decimal point in Rust's float grammar (optional sign, digits, optional exponent, or inf/infinity/nan), or (b) optional '+', digits, '.', digits, with no exponent, both digit groups non-empty and below 2^64. Everything else yields an error.", "quantifier": "all byte strings", "why_tests_cant": "the rejected and accepted sets are both infinite", "anchors": ["intl_pluralrules/src/operands.rs: TryFrom<&str>::try_from"]}
{"id": "C06", "title": "Integer strings give the exact integer operand i", "statement": "Converting a string of decimal digits (no decimal point) whose value V fits in 64 bits gives i = V and v = w = f = t = 0.", "quantifier": "all digit strings with value below 2^64", "why_tests_cant": "the conversion goes through a 53-bit float, failures appear only for some large values", "anchors": ["intl_pluralrules/src/operands.rs: TryFrom<&str>::try_from (absolute_value as u64)"]}
{"id": "C07", "title": "Operands of an accepted string are mutually consistent", "statement": "For every accepted string: w <= v, f = t * 10^(v-w), f < 10^v, t < 10^w, and t has no trailing zero (t = 0 exactly when w = 0, otherwise 10 does not divide t).", "quantifier": "all strings accepted by the conversion", "why_tests_cant": "relation between five computed fields over all inputs", "anchors": ["intl_pluralrules/src/operands.rs: TryFrom<&str>::try_from"]}
{"id": "C08", "title": "Trailing fraction zeros only affect v and f", "statement": "Appending a '0' to an accepted numeral with a decimal point keeps n, i, w and t, increments v, multiplies f by ten; the only way it can fail is f*10 no longer fitting in 64 bits.", "quantifier": "all accepted strings containing '.'", "why_tests_cant": "all strings", "anchors": ["intl_pluralrules/src/operands.rs: TryFrom<&str>::try_from (trim_end_matches)"]}
{"id": "C09", "title": "Leading zeros never change the operands", "statement": "Prepending '0' to any unsigned plain decimal numeral leaves the conversion result unchanged.", "quantifier": "all plain decimal numerals, accepted or not", "why_tests_cant": "all strings", "anchors": ["intl_pluralrules/src/operands.rs: TryFrom<&str>::try_from"]}
{"id": "C10", "title": "String conversion never panics", "statement": "Converting any valid UTF-8 string returns Ok or Err; no slice ever falls outside the string or off a character boundary.", "quantifier": "all valid UTF-8 strings", "why_tests_cant": "panic freedom over all inputs", "anchors": ["intl_pluralrules/src/operands.rs: TryFrom<&str>::try_from (slicing), impl_convert_type!(String)"]}
{"id": "C11", "title": "Unsigned integers convert exactly", "statement": "Converting a u8, u16, u32, u64 or usize value x gives i = x, n = x rounded to nearest-even binary64, v = w = f = t = 0, and cannot fail.", "quantifier": "all values of the five unsigned types", "why_tests_cant": "2^64 values", "anchors": ["intl_pluralrules/src/operands.rs: impl_integer_type!"]}
{"id": "C12", "title": "Signed integers convert to their absolute value", "statement": "On a 64-bit target, converting a signed integer x of any of the five widths gives i = |x|, n = |x| rounded, v = w = f = t = 0; it fails exactly for x = -2^63.", "quantifier": "all values of i8, i16, i32, i64, isize", "why_tests_cant": "2^64 values and a single failing one", "anchors": ["intl_pluralrules/src/operands.rs: impl_signed_integer_type!"]}
{"id": "C13", "title": "Signed conversion does not depend on the pointer width", "statement": "Converting an i64 gives the same result on 32-bit and 64-bit targets.", "quantifier": "all i64 values and both pointer widths", "why_tests_cant": "needs 32-bit hardware and 2^64 values", "anchors": ["intl_pluralrules/src/operands.rs: impl_signed_integer_type! (input as isize)"]}
{"id": "C14", "title": "Negating an integer never changes the operands", "statement": "For every signed integer x other than the minimum, the operands of x and -x are equal, hence so are the selected categories.", "quantifier": "all signed integers", "why_tests_cant": "2^63 pairs", "anchors": ["intl_pluralrules/src/operands.rs: impl_signed_integer_type!"]}
{"id": "C15", "title": "An integer and its decimal spelling give the same operands", "statement": "For every integer x with |x| <= 2^53 the operands of x and of its decimal string are identical.", "quantifier": "all integers up to 2^53 in absolute value", "why_tests_cant": "2^54 values; beyond the bound the two paths differ", "anchors": ["intl_pluralrules/src/operands.rs: impl_signed_integer_type!, impl_integer_type!, TryFrom<&str>::try_from"]}
{"id": "C16", "title": "Every finite float converts successfully", "statement": "Converting any finite f64 or f32 succeeds.", "quantifier": "all finite binary64 and binary32 values", "why_tests_cant": "2^64 values; depends on the digit count of the shortest rendering", "anchors": ["intl_pluralrules/src/operands.rs: impl_convert_type!(f32 f64 String)"]}
{"id": "C17", "title": "Operand n of a float is exactly its absolute value", "statement": "For every finite f64 x, operand n equals |x| bit for bit, despite the detour through a decimal string.", "quantifier": "all finite binary64 values", "why_tests_cant": "2^64 values", "anchors": ["intl_pluralrules/src/operands.rs: impl_convert_type!(f32 f64 String)"]}
{"id": "C18", "title": "Float operands are those of the shortest decimal and have no trailing zeros", "statement": "For every finite f64 x, the operands i, v, w, f, t are those of a decimal numeral that rounds to |x| and such that no decimal with fewer significant digits does; v = w and f = t.", "quantifier": "all finite binary64 values", "why_tests_cant": "2^64 values", "anchors": ["intl_pluralrules/src/operands.rs: impl_convert_type!(f32 f64 String)"]}
{"id": "C19", "title": "Negating a float never changes the operands", "statement": "For every f64 x (including infinities and NaN) the operands of x and -x are equal.", "quantifier": "all binary64 values", "why_tests_cant": "2^64 values", "anchors": ["intl_pluralrules/src/operands.rs: impl_convert_type!(f32 f64 String)"]}
{"id": "C20", "title": "Infinities and NaN", "statement": "An infinite or NaN float is accepted, with n = +inf, i = 2^64-1 for infinities and n = NaN, i = 0 for NaN, v = w = f = t = 0.", "quantifier": "all infinities and NaNs of both float types", "why_tests_cant": "documents the exact behaviour on the non-finite class", "anchors": ["intl_pluralrules/src/operands.rs: impl_convert_type!(f32 f64 String)"]}
{"id": "C21", "title": "create succeeds exactly for the listed locales", "statement": "PluralRules::create(l, t) is Ok if and only if l is an element of PluralRules::get_locales(t); otherwise it is Err(\"unknown locale\").", "quantifier": "all language identifiers (any subtags) and both rule types", "why_tests_cant": "infinitely many identifiers; binary search correctness on the whole table", "anchors": ["intl_pluralrules/src/lib.rs: PluralRules::create, PluralRules::get_locales", "intl_pluralrules/src/rules.rs: PRS_CARDINAL, PRS_ORDINAL"]}
{"id": "C22", "title": "create installs the rule listed for that very locale", "statement": "When create(l, t) succeeds, the rule it uses is the one attached to l in the table for type t, and that table has only one entry for l.", "quantifier": "all language identifiers and both rule types", "why_tests_cant": "binary search correctness", "anchors": ["intl_pluralrules/src/lib.rs: PluralRules::create", "intl_pluralrules/src/rules.rs: PRS_CARDINAL, PRS_ORDINAL"]}
{"id": "C23", "title": "get_locale returns the requested locale", "statement": "If create(l, t) is Ok(pr) then pr.get_locale() == l; no canonicalisation or fallback changes it.", "quantifier": "all language identifiers", "why_tests_cant": "all identifiers", "anchors": ["intl_pluralrules/src/lib.rs: PluralRules::get_locale, PluralRules::create"]}
{"id": "C24", "title": "There is no fallback from a more specific locale", "statement": "create fails for every language identifier that carries a script, a variant, or a region, with the single exception of pt-PT cardinal rules.", "quantifier": "all language identifiers with a script, region or variant", "why_tests_cant": "infinitely many identifiers", "anchors": ["intl_pluralrules/src/lib.rs: PluralRules::create", "intl_pluralrules/src/rules.rs: PRS_CARDINAL, PRS_ORDINAL"]}
{"id": "C25", "title": "get_locales is strictly sorted and equals the CLDR key set", "statement": "get_locales(t) is strictly increasing (hence duplicate free) and contains exactly the keys of the shipped CLDR JSON for type t, parsed as language identifiers, without root.", "quantifier": "all identifiers and both types", "why_tests_cant": "set equality quantified over every identifier, plus agreement of two files", "anchors": ["intl_pluralrules/src/lib.rs: PluralRules::get_locales", "intl_pluralrules/src/rules.rs", "intl_pluralrules/cldr_data/*.json"]}
{"id": "C26", "title": "select fails exactly when the number cannot be converted", "statement": "For any created PluralRules and any input, select returns Err(\"Argument can not be parsed to operands.\") iff the input's conversion to operands fails, and otherwise Ok of a category that depends only on the operands.", "quantifier": "all locales, all inputs", "why_tests_cant": "all inputs", "anchors": ["intl_pluralrules/src/lib.rs: PluralRules::select"]}
{"id": "C27", "title": "Selecting a category never panics", "statement": "Evaluating any shipped rule on any operands terminates with a category: no division by zero and no overflow.", "quantifier": "all shipped rules, all operand values (also hand-made inconsistent ones and NaN)", "why_tests_cant": "2^300 operand values", "anchors": ["intl_pluralrules/src/rules.rs: PRS_CARDINAL, PRS_ORDINAL", "intl_pluralrules/src/lib.rs: PluralRules::select"]}
{"id": "C28", "title": "select only returns categories the locale defines", "statement": "The category returned is OTHER or one for which the shipped CLDR data has a rule for that locale and type.", "quantifier": "all locales, all operands", "why_tests_cant": "all operands", "anchors": ["intl_pluralrules/src/rules.rs", "intl_pluralrules/src/lib.rs: PluralRules::select", "intl_pluralrules/cldr_data/*.json"]}
{"id": "C29", "title": "select follows the CLDR rules for every locale", "statement": "For every locale and decimal number, select(number) is the category whose CLDR condition (UTS #35 semantics, exact decimal arithmetic) the number satisfies, or OTHER if it satisfies none.", "quantifier": "all locales of both types and all decimal numerals (digits read as one integer below 2^53, at most 307 of them after the point)", "why_tests_cant": "all numbers for 309 rules", "anchors": ["intl_pluralrules/src/rules.rs", "intl_pluralrules/src/lib.rs: PluralRules::select", "make_pluralrules/src/parser/gen_pr.rs: create_relation", "intl_pluralrules/cldr_data/*.json"]}
{"id": "C30", "title": "Exact list of locales that follow CLDR", "statement": "The locales for which select follows CLDR on every decimal numeral (digits read as one integer below 2^53, at most 307 of them after the point), those for which it does so only on integers, and those for which it is wrong on some integer are exactly three explicit lists that together cover the table; each negative membership has a concrete witness number.", "quantifier": "all locales of both types and all decimal numerals", "why_tests_cant": "all numbers", "anchors": ["intl_pluralrules/src/rules.rs", "make_pluralrules/src/parser/gen_pr.rs: create_relation"]}
{"id": "C31", "title": "select on u64 follows CLDR without size limit", "statement": "For every locale in the first two lists and every u64 value, select(x) is the CLDR category of x.", "quantifier": "all u64 values, locales of the first two lists", "why_tests_cant": "2^64 values", "anchors": ["intl_pluralrules/src/rules.rs", "intl_pluralrules/src/operands.rs: impl_integer_type!", "intl_pluralrules/src/lib.rs: PluralRules::select"]}
{"id": "C32", "title": "select on f64 follows CLDR for the shortest decimal", "statement": "For every locale in the first list and every finite f64 with magnitude below 2^53, select(x) is the CLDR category of x's shortest decimal representation.", "quantifier": "all such f64 values", "why_tests_cant": "2^63 values", "anchors": ["intl_pluralrules/src/rules.rs", "intl_pluralrules/src/operands.rs: impl_convert_type!", "intl_pluralrules/src/lib.rs: PluralRules::select"]}
{"id": "C33", "title": "CLDR conditions of one locale are mutually exclusive", "statement": "For each locale and type of the shipped data, no decimal number satisfies the conditions of two different categories, so the order in which categories are tested cannot matter for a faithful implementation.", "quantifier": "all locales, all decimal numbers", "why_tests_cant": "all numbers", "anchors": ["intl_pluralrules/cldr_data/*.json", "make_pluralrules/src/lib.rs: gen_type_rs (BTreeMap order)"]}
{"id": "C34", "title": "Printing then parsing a condition is the identity", "statement": "Any condition AST with non-empty lists and values below 2^64, written in CLDR syntax, is parsed back to exactly that AST by parse_plural_rule and parse_plural_condition.", "quantifier": "all condition ASTs, any number of or/and parts, ranges and values; both pointer widths", "why_tests_cant": "unbounded ASTs", "anchors": ["cldr_pluralrules_parser/src/lib.rs: parse_plural_rule, parse_plural_condition", "cldr_pluralrules_parser/src/parser.rs", "cldr_pluralrules_parser/src/ast.rs"]}
{"id": "C35", "title": "Printing then parsing a rule with samples is the identity", "statement": "The same with @integer and @decimal sample lists attached (ranges, ellipsis), for parse_plural_rule, provided the condition is not empty.", "quantifier": "all rule ASTs; both pointer widths", "why_tests_cant": "unbounded ASTs", "anchors": ["cldr_pluralrules_parser/src/lib.rs: parse_plural_rule", "cldr_pluralrules_parser/src/parser.rs: samples, sample_list, sample_range, decimal_value"]}
{"id": "C36", "title": "The parser accepts every legal spacing", "statement": "Optional blanks (spaces or tabs, any number) where CLDR syntax allows them, and '%' versus 'mod', never change the parsed AST.", "quantifier": "all ASTs and all spacings; both pointer widths", "why_tests_cant": "unbounded spacings", "anchors": ["cldr_pluralrules_parser/src/parser.rs: relation, mod_expression, range_list, and_condition, parse_condition"]}
{"id": "C37", "title": "parse_plural_rule accepts only CLDR rule syntax", "statement": "If parse_plural_rule succeeds with a non-empty condition then the complete input is a CLDR rule (in the grammar with free blanks) denoting the returned AST; nothing is skipped.", "quantifier": "all strings; both pointer widths", "why_tests_cant": "all strings", "anchors": ["cldr_pluralrules_parser/src/lib.rs: parse_plural_rule", "cldr_pluralrules_parser/src/parser.rs"]}
{"id": "C38", "title": "Rule and condition parsers agree", "statement": "If parse_plural_rule(s) is Ok(r) then parse_plural_condition(s) is Ok(r.condition).", "quantifier": "all strings; both pointer widths", "why_tests_cant": "all strings", "anchors": ["cldr_pluralrules_parser/src/lib.rs: parse_plural_rule, parse_plural_condition"]}
{"id": "C39", "title": "parse_plural_condition rejects malformed conditions", "statement": "parse_plural_condition succeeds only if its input is a well-formed condition optionally followed by samples.", "quantifier": "all strings; both pointer widths", "why_tests_cant": "all strings", "anchors": ["cldr_pluralrules_parser/src/lib.rs: parse_plural_condition"]}
{"id": "C40", "title": "Numbers in a parsed AST fit in usize and ASTs are well formed", "statement": "In every AST returned by either parser all numbers are below 2^64 (on 64-bit), every or/and list is non-empty except for the empty condition; a numeral too large for usize is never silently truncated.", "quantifier": "all strings; both pointer widths", "why_tests_cant": "all strings", "anchors": ["cldr_pluralrules_parser/src/parser.rs: value, and_condition, parse_condition"]}
{"id": "C41", "title": "Empty and sample-only rules parse to the empty condition", "statement": "A string whose first non-blank character is '@', or which is blank, parses to the empty condition and nothing else does.", "quantifier": "all strings; both pointer widths", "why_tests_cant": "all strings", "anchors": ["cldr_pluralrules_parser/src/parser.rs: parse_condition"]}
{"id": "C42", "title": "Samples of a rule without condition are reported", "statement": "A rule consisting only of samples, such as CLDR's 'other' rules, is parsed to an AST holding those samples.", "quantifier": "all sample-only rules; both pointer widths", "why_tests_cant": "all strings", "anchors": ["cldr_pluralrules_parser/src/parser.rs: parse_condition, parse_rule"]}
{"id": "C43", "title": "Sample numbers are represented faithfully", "statement": "Two different sample numerals (such as 1.5 and 1.05, or 1.0 and 1.00) yield different ASTs.", "quantifier": "all sample numerals; both pointer widths", "why_tests_cant": "all pairs", "anchors": ["cldr_pluralrules_parser/src/parser.rs: decimal_value", "cldr_pluralrules_parser/src/ast.rs: DecimalValue"]}
{"id": "C44", "title": "Parsing always terminates without panicking", "statement": "Both parse functions return Ok or Err on every string; the unreachable!() branch is unreachable and no list combinator loops.", "quantifier": "all strings; both pointer widths", "why_tests_cant": "all strings", "anchors": ["cldr_pluralrules_parser/src/parser.rs: operand", "cldr_pluralrules_parser/src/lib.rs"]}
{"id": "C45", "title": "Generated conditions mean what the CLDR condition means", "statement": "For every condition AST in the supported fragment (operators =, != and their synonyms; moduli positive; operand n with modulus or negated range only under a guard that the number is an integer; no n-range with modulus), the Rust expression generated for it evaluates, on the operands of any decimal numeral, to true iff the numeral satisfies the condition under UTS #35.", "quantifier": "all condition ASTs of the fragment and all operands", "why_tests_cant": "unbounded ASTs times unbounded numbers", "anchors": ["make_pluralrules/src/parser/gen_pr.rs: create_relation, create_and_condition, create_condition, gen_pr"]}
{"id": "C46", "title": "Generated code respects Rust operator precedence", "statement": "Read with Rust's precedence, the tokens generated for any condition whose lists are non-empty form one boolean expression whose value is the or of ands of the values of its relations.", "quantifier": "all condition ASTs with non-empty lists and without within", "why_tests_cant": "unbounded ASTs", "anchors": ["make_pluralrules/src/parser/gen_pr.rs"]}
{"id": "C47", "title": "Generating a range with modulus on n is correct", "statement": "For 'n % m = a..b' the generated test evaluates to true exactly for the numbers satisfying the relation.", "quantifier": "all m, a, b and numbers", "why_tests_cant": "all numbers", "anchors": ["make_pluralrules/src/parser/gen_pr.rs: create_relation (n, mod_check, ranges)"]}
{"id": "C48", "title": "within generates an interval test", "statement": "'x within a..b' generates a test that is true iff a <= x <= b, fractions included; the generator does not fail on any parsable within relation.", "quantifier": "all within relations and numbers", "why_tests_cant": "all numbers", "anchors": ["make_pluralrules/src/parser/gen_pr.rs: create_relation (Operator::Within)"]}
{"id": "C49", "title": "not within is the negation of within", "statement": "'x not within a..b' generates the negation of 'x within a..b'.", "quantifier": "all ranges and numbers", "why_tests_cant": "all numbers", "anchors": ["make_pluralrules/src/parser/gen_pr.rs: create_relation, get_operator_symbol"]}
{"id": "C50", "title": "Generated tables are sorted", "statement": "For every input on which generate_rs succeeds, the locales in each generated table appear in strictly increasing order whenever their identifiers are distinct, as the consumer's binary search requires.", "quantifier": "all CLDR resources", "why_tests_cant": "all inputs", "anchors": ["make_pluralrules/src/lib.rs: gen_type_rs (sort_unstable_by)", "intl_pluralrules/src/lib.rs: PluralRules::create"]}
{"id": "C51", "title": "Every locale of the input is generated once, root excepted", "statement": "The generated table contains exactly one entry per key of the input other than root, for the identifier that key parses to.", "quantifier": "all CLDR resources", "why_tests_cant": "all inputs", "anchors": ["make_pluralrules/src/lib.rs: gen_type_rs"]}
{"id": "C52", "title": "The shipped rules.rs is what the generator produces", "statement": "Running the generator on the shipped CLDR JSON files produces the shipped rules.rs, up to formatting: same version constant, same locales, same expressions in the same order.", "quantifier": "every entry of both tables, all sorting functions, both pointer widths of the generating machine", "why_tests_cant": "needs running the generator; ties two files together for all entries", "anchors": ["intl_pluralrules/src/rules.rs", "make_pluralrules/src/lib.rs: generate_rs", "intl_pluralrules/cldr_data/*.json", "intl_pluralrules/.cargo/config"]}
{"id": "C53", "title": "Inputs with different CLDR versions are refused", "statement": "generate_rs panics whenever two inputs disagree on the CLDR version, and otherwise emits that common version (as an integer).", "quantifier": "all lists of inputs", "why_tests_cant": "all inputs", "anchors": ["make_pluralrules/src/lib.rs: generate_rs", "make_pluralrules/src/parser/gen_rs.rs: gen_fn"]}
{"id": "C54", "title": "Duplicate or missing data is refused", "statement": "generate_rs panics when two inputs both carry cardinal (or both ordinal) data, and when no input carries any.", "quantifier": "all lists of inputs", "why_tests_cant": "all inputs", "anchors": ["make_pluralrules/src/lib.rs: generate_rs"]}
{"id": "C55", "title": "The order of the input files is irrelevant", "statement": "generate_rs on a permutation of the inputs produces the same output, or panics for both.", "quantifier": "all lists of inputs and permutations", "why_tests_cant": "all permutations", "anchors": ["make_pluralrules/src/lib.rs: generate_rs"]}
{"id": "C56", "title": "The order of keys in the JSON is irrelevant", "statement": "Reordering the categories of a locale, or the locales, in the CLDR JSON does not change the generated code.", "quantifier": "all resources and permutations", "why_tests_cant": "all permutations", "anchors": ["make_pluralrules/src/lib.rs: gen_type_rs", "make_pluralrules/src/parser/resource.rs"]}
{"id": "C57", "title": "OTHER is the fallback", "statement": "The generated function of a locale returns OTHER exactly when none of the generated conditions of its other categories holds; the text of the 'other' rule has no influence.", "quantifier": "all rule sets and operands", "why_tests_cant": "all inputs", "anchors": ["make_pluralrules/src/lib.rs: gen_type_rs", "make_pluralrules/src/parser/gen_rs.rs: gen_mid, create_return"]}
{"id": "C58", "title": "Distinct locales generate distinct table keys", "statement": "Two different language identifiers in the input produce two different identifiers in the generated table.", "quantifier": "all pairs of identifiers", "why_tests_cant": "all pairs", "anchors": ["make_pluralrules/src/parser/gen_rs.rs: gen_langid (variants dropped)"]}
{"id": "C59", "title": "Raw subtag integers denote the locale", "statement": "The integers emitted for a language, script or region subtag decode to exactly that subtag.", "quantifier": "all subtags", "why_tests_cant": "all subtags", "anchors": ["make_pluralrules/src/parser/gen_rs.rs: gen_langid", "intl_pluralrules/src/rules.rs: langid!"]}
{"id": "C60", "title": "Integer part of a float", "statement": "For every finite f64 x, operand i is the integer part of |x|, capped at 2^64-1.", "quantifier": "all finite binary64 values", "why_tests_cant": "The value travels through its shortest decimal string and back; that no rounding in either direction moves it across an integer must hold for all 2^64 floats.", "anchors": ["intl_pluralrules/src/operands.rs: impl_convert_type!, TryFrom<&str>"]}
{"id": "C61", "title": "select on f32 follows CLDR for the shortest decimal", "statement": "For every locale in the first list of C30 and every finite f32 with magnitude below 2^53, select(x) is the CLDR category of x's shortest decimal representation among those that read back as the same f32 (not of the f32's exact binary value).", "quantifier": "all f32 bit patterns with magnitude below 2^53, all locales of the list, both rule types", "why_tests_cant": "there are 2^32 bit patterns times 200 locales, and the result depends on an interplay of shortest printing in one precision and parsing in another", "anchors": ["intl_pluralrules/src/operands.rs:168-186", "intl_pluralrules/src/lib.rs:140-150"]}
{"id": "C62", "title": "select on long numerals follows CLDR", "statement": "For every locale in the first list of C30 and every decimal numeral with integer part below 2^53 and fraction digits below 2^64, select is the CLDR category, whatever the number of digits.", "quantifier": "all numerals with integer part below 2^53 and fraction below 2^64", "why_tests_cant": "only numerals that lie within half a unit in the last place of an integer go wrong, and samples in CLDR have few digits", "anchors": ["intl_pluralrules/src/operands.rs:73-118", "intl_pluralrules/src/rules.rs"]}
{"id": "C63", "title": "Generated functions follow CLDR end to end", "statement": "For every CLDR JSON input on which generate_rs succeeds and whose conditions avoid the mistranslated relations (see C47-C49), the function generated for each locale, run on the operands of a numeral or of an unsigned integer, returns the category that UTS #35 assigns to that number by the rule texts of the locale in the JSON.", "quantifier": "all resources, locales, numerals (digits below 2^53, at most 307 fraction digits) and u64", "why_tests_cant": "quantifies over all rule files and all numbers; tests check a few numbers on the shipped file", "anchors": ["make_pluralrules/src/lib.rs: generate_rs, gen_type_rs", "make_pluralrules/src/parser/gen_pr.rs", "make_pluralrules/src/parser/gen_rs.rs: gen_mid", "intl_pluralrules/src/operands.rs"]}
{"id": "C64", "title": "Exactly when the generator succeeds", "statement": "generate_rs returns a string if and only if every input parses as a resource, all inputs have the same integer CLDR version, cardinal and ordinal data each occur at most once and not both are missing, every locale key other than root is a language identifier, and every rule name has three parts, every rule text parses and no within relation lacks a range; otherwise it panics.", "quantifier": "all lists of input texts", "why_tests_cant": "an equivalence over all inputs", "anchors": ["make_pluralrules/src/lib.rs: generate_rs, gen_type_rs", "make_pluralrules/src/parser/gen_rs.rs: gen_fn", "make_pluralrules/src/parser/resource.rs"]}
{"id": "C65", "title": "The unstable sort does not matter", "statement": "When the keys of the input parse to distinct identifiers, the output of generate_rs does not depend on which sorting algorithm sort_unstable_by uses.", "quantifier": "all inputs with distinct identifiers, all sorting functions", "why_tests_cant": "a test exercises the one algorithm of the installed standard library", "anchors": ["make_pluralrules/src/lib.rs: gen_type_rs (sort_unstable_by)"]}
{"id": "C66", "title": "The generator reproduces the repository's fixtures", "statement": "On the trimmed CLDR 33 cardinal and ordinal fixture files generate_rs returns exactly the trimmed text of cldr_pluralrules_33.rs, and on the within fixture exactly that of cldr_pluralrules_within_test.rs, whichever algorithm sort_unstable_by uses.", "quantifier": "all sorting functions, both pointer widths of the generating machine; the two fixture inputs", "why_tests_cant": "the tests check it only for the sort of the installed standard library", "anchors": ["make_pluralrules/src/lib.rs: generate_rs", "make_pluralrules/tests/test.rs: full_cldr_test, within_test"]}
{"id": "C67", "title": "Nothing is written unless the code could be generated", "statement": "If an input file is missing or is not UTF-8, or generate_rs does not return for the contents, the program panics and every file keeps its contents, the output file included.", "quantifier": "all file systems, options, input lists", "why_tests_cant": "tests never run main and would need every kind of failing input", "anchors": ["make_pluralrules/src/main.rs: main"]}
{"id": "C68", "title": "What a successful run leaves on disk", "statement": "main succeeds exactly when the inputs are readable, generate_rs returns, the output can be created and written, and --ugly is given or rustfmt can be started. Then with --ugly the output file holds exactly generate_rs of the inputs in the order given, even if it was one of the inputs, and no other file changes; otherwise rustfmt is applied to that state and to that path.", "quantifier": "all file systems, options, and operating system behaviours", "why_tests_cant": "tests never run main; the behaviour depends on the whole file system", "anchors": ["make_pluralrules/src/main.rs: main"]}
{"id": "C69", "title": "A failed run leaves every file as it was", "statement": "If the program does not succeed, no file has changed.", "quantifier": "all file systems, options, and operating system behaviours", "why_tests_cant": "needs I/O failures at every point", "anchors": ["make_pluralrules/src/main.rs: main (File::create, write_all, rustfmt)"]}
{"id": "C70", "title": "Running the program again reproduces the file", "statement": "After a successful run with --ugly whose output is not among its inputs, running it again succeeds and changes nothing.", "quantifier": "all file systems, options", "why_tests_cant": "tests run the generator once per fixture", "anchors": ["make_pluralrules/src/main.rs: main"]}
{"id": "C71", "title": "Exactly which texts are resources, and what they say", "statement": "parse_plurals_resource_from_string returns r for a text exactly when the text is one JSON value (RFC 8259 grammar with escapes and surrogate pairs, white space around it) that says r: an object with exactly one \"supplemental\", in it exactly one \"version\" with one \"_unicodeVersion\" and \"_cldrVersion\" and at most one nullable \"_number\", at most one nullable \"plurals-type-cardinal\" and \"plurals-type-ordinal\", each a map of maps of strings in which the last of equal keys counts; unknown fields are ignored whatever they hold; a struct may also be written as the array of its fields. Everything else panics in generate_rs.", "quantifier": "all input texts", "why_tests_cant": "infinitely many texts; tests only parse the well-formed CLDR files", "anchors": ["make_pluralrules/src/parser/resource.rs: Resource, Supplemental, Version, parse_plurals_resource_from_string"]}
{"id": "C72", "title": "Exactly which locale keys are accepted, and what they name", "statement": "A locale key is parsed to an identifier exactly when it is a language of 2, 3 or 5 to 8 letters, then at most one script of 4 letters, then at most one region of 2 letters or 3 digits, then any number of variants (5 to 8 letters or digits, or 4 beginning with a digit), separated by '-' or '_'; the identifier has the subtags in canonical case, \"und\" as no language, and the variants sorted without repetition.", "quantifier": "all texts", "why_tests_cant": "infinitely many keys; tests only use the CLDR locales", "anchors": ["make_pluralrules/src/lib.rs: gen_type_rs (LanguageIdentifier::from_str(&key))"]}
{"id": "C73", "title": "A rule text has at most one reading", "statement": "If a text is derivable in the CLDR rule grammar as rule r, then r is the only rule it derives, and parse_plural_rule returns r and nothing else; distinct printable rules have distinct canonical texts.", "quantifier": "all texts and rules; both pointer widths", "why_tests_cant": "ambiguity is a statement about all pairs of derivations of all texts", "anchors": ["cldr_pluralrules_parser/src/lib.rs: parse_plural_rule"]}
{"id": "C74", "title": "A float and the numeral it was written as select alike", "statement": "Let s be a numeral without trailing fraction zeros, with optional '-', whose digits are d times a power of ten with d < 2^52, with at most 307 decimals. The f64 nearest to it converts to exactly the operands of the string s. The same for f32 with d < 2^23, at most 37 decimals and a finite result.", "quantifier": "all such numerals, both signs", "why_tests_cant": "about 10^16 numerals times the exponents; depends on rounding and on shortest printing being inverse to each other", "anchors": ["intl_pluralrules/src/operands.rs: TryFrom<f64>, TryFrom<f32>, TryFrom<&str>"]}
{"id": "C75", "title": "Integral floats convert like integers", "statement": "For every integer x below 2^53, the f64 equal to x or to -x converts to exactly the operands of the unsigned integer x, so select gives the same category for both with every rule.", "quantifier": "all x < 2^53, both signs, all PluralRules values, both pointer widths", "why_tests_cant": "2^53 integers; depends on how each is printed", "anchors": ["intl_pluralrules/src/operands.rs: TryFrom<f64>, From<u64>", "intl_pluralrules/src/lib.rs: PluralRules::select"]}
{"id": "C76", "title": "The samples in the CLDR data get their category", "statement": "Take any locale and category of the CLDR data the crate ships, and any number listed among the samples of that rule (after '@', singly or inside a range a~b). The UTS #35 meaning of the locale's rules gives that category for the number, and so does PluralRules::select with any numeral denoting it.", "quantifier": "all locales and categories of both data files, every sample including every number inside a range, every numeral of it, both search modes and both pointer widths", "why_tests_cant": "about 14000 sample numbers in 400 rule sets, each with infinitely many numerals; the repository tests none of them systematically", "anchors": ["intl_pluralrules/cldr_data/cldr_pluralrules_cardinals.json", "intl_pluralrules/cldr_data/cldr_pluralrules_ordinals.json", "intl_pluralrules/src/lib.rs: PluralRules::select"]}
{"id": "C77", "title": "Equality of operands", "statement": "Two PluralOperands are equal exactly when the integer fields agree and the two n are the same float other than NaN, or zeros of any sign. So equality is symmetric and transitive, and reflexive unless n is NaN. Equal operands get the same category from every PluralRules value.", "quantifier": "all values of PluralOperands, all PluralRules values, both pointer widths", "why_tests_cant": "all pairs of 64-bit patterns; NaN and the signed zeros are the cases tests forget", "anchors": ["intl_pluralrules/src/operands.rs: PluralOperands (derived PartialEq)", "intl_pluralrules/src/lib.rs: PluralRules::select"]}
{"id": "C78", "title": "What a failed parse reports", "statement": "parse_plural_rule fails with \"Parser failed\" exactly when the text has a condition part no beginning of which is a condition, and with \"Left string: \" and a text exactly when that non-empty text is what follows the longest condition at the beginning and the longest list of samples after it. parse_plural_condition fails exactly in the first case.", "quantifier": "all texts; both pointer widths", "why_tests_cant": "all malformed texts; the repository's tests do not look at error values", "anchors": ["cldr_pluralrules_parser/src/lib.rs: parse_plural_rule, parse_plural_condition", "cldr_pluralrules_parser/src/parser.rs: samples, sample_list, sample_range, decimal_value"]}
{"id": "C79", "title": "Exactly which numbers get a wrong category", "statement": "For every locale and rule type, select answers what CLDR prescribes for a number if and only if the number is not in a set given by a short arithmetic description of its integer part i, its count v of fraction digits and its fraction digits f (for Arabic cardinals: integers with i >= 100 and i % 100 >= 3, fractions with 3 <= i <= 99). The set is empty for all locales outside the two lists of C30.", "quantifier": "all locales, both rule types, all decimal numerals with digits below 2^53 and at most 307 decimals, longer numerals with integer part below 2^53 and fraction below 2^64 whose fraction does not round away, all u64, all i64 but the least (on 64-bit targets), all finite f64 and f32 below 2^53 (by their shortest decimal)", "why_tests_cant": "an equivalence over all numbers; the repository's tests hold one or two numbers per locale", "anchors": ["intl_pluralrules/src/lib.rs: PluralRules::select", "intl_pluralrules/src/rules.rs: PRS_CARDINAL, PRS_ORDINAL", "make_pluralrules/src/parser/gen_pr.rs: create_relation"]}
{"id": "C80", "title": "The rule parser on 32-bit and 64-bit machines", "statement": "parse_plural_rule and parse_plural_condition answer alike on machines with 32-bit and 64-bit usize. (False: a number of 2^32 or more ends the list of values early on a 32-bit machine; it holds for texts whose numbers are below 2^32, among them every rule of the shipped CLDR files, and a rule accepted on a 32-bit machine is read the same on a 64-bit one.)", "quantifier": "all texts", "why_tests_cant": "tests run on one machine; the difference needs numbers above 2^32", "anchors": ["cldr_pluralrules_parser/src/parser.rs: value", "cldr_pluralrules_parser/src/lib.rs: parse_plural_rule, parse_plural_condition"]}
{"id": "C81", "title": "What a failed number conversion reports", "statement": "Converting a string to operands fails with \"Incorrect number passed!\" exactly when the text after one leading minus sign is not a floating-point number in Rust's syntax, and with \"Could not convert string to integer!\" exactly when it is one with a decimal point whose two sides are not both plain integers below 2^64 (a second sign, nothing before or after the point, an exponent, or too many digits). There is no other error.", "quantifier": "all UTF-8 strings", "why_tests_cant": "equivalences over all strings; tests hold a few rejected strings and do not look at the message", "anchors": ["intl_pluralrules/src/operands.rs: impl TryFrom<&str> for PluralOperands"]}
{"id": "C82", "title": "Which locale names get plural rules", "statement": "A text names a locale for which create succeeds exactly when it is a key of the CLDR file other than root, up to the case of letters and the choice between '-' and '_'; it then names the same locale as that key.", "quantifier": "all texts, both rule types, both search algorithms of the standard library", "why_tests_cant": "infinitely many texts; tests try a handful of names in canonical spelling", "anchors": ["intl_pluralrules/src/lib.rs: PluralRules::create", "intl_pluralrules/src/rules.rs: PRS_CARDINAL, PRS_ORDINAL"]}
{"id": "C83", "title": "The category of an integer repeats with a known period", "statement": "For every locale and rule type there are a number B and a period P, given in a table, such that integers from B on with the same remainder by P get the same category, and no smaller B and no P that is not a multiple has this property.", "quantifier": "all locales, both rule types, all u64; minimality against all B' and P' below 2^40", "why_tests_cant": "quantifies over all pairs of integers, and over all periods", "anchors": ["intl_pluralrules/src/lib.rs: PluralRules::select", "intl_pluralrules/src/rules.rs: PRS_CARDINAL, PRS_ORDINAL"]}
{"id": "C84", "title": "Where the number of trailing zeros matters", "statement": "For the locales outside a list of 44 (cardinals only) the category of a number does not depend on how its value is written: \"1\", \"1.0\" and \"1.00\" select alike. For each listed locale two spellings of one value select different categories.", "quantifier": "all locales, both rule types, all pairs of accepted decimal numerals of equal value, any number of digits (those without a point: up to 2^53); appending a zero: all accepted strings with a point", "why_tests_cant": "quantifies over all pairs of spellings of all numbers", "anchors": ["intl_pluralrules/src/lib.rs: PluralRules::select", "intl_pluralrules/src/operands.rs: impl TryFrom<&str> for PluralOperands", "intl_pluralrules/src/rules.rs: PRS_CARDINAL, PRS_ORDINAL"]}
{"id": "C85", "title": "Which locales have the same rule", "statement": "Two locales answer alike for every number exactly when they are in the same class of a given table (35 cardinal and 23 ordinal classes).", "quantifier": "all pairs of locales, both rule types, all inputs", "why_tests_cant": "equality of functions on all numbers for some 54000 pairs of locales", "anchors": ["intl_pluralrules/src/lib.rs: PluralRules::select", "intl_pluralrules/src/rules.rs: PRS_CARDINAL, PRS_ORDINAL"]}
{"id": "C86", "title": "Every category of a locale is used", "statement": "Each category for which CLDR gives a locale a rule, and OTHER, is selected for some number. It is selected for some integer except MANY in Czech, Manx, Lithuanian and Slovak and OTHER in Polish, Russian and Ukrainian, which no integer gets.", "quantifier": "all locales, both rule types, all categories; the exceptions over all u64", "why_tests_cant": "the exceptions quantify over all integers; a shadowed arm would go unnoticed", "anchors": ["intl_pluralrules/src/lib.rs: PluralRules::select", "intl_pluralrules/src/rules.rs: PRS_CARDINAL, PRS_ORDINAL"]}
{"id": "C87", "title": "Numbers in exponent notation", "statement": "A number in exponent notation (\"12e3\", \"15e-1\") gets the operands of the plain numeral of the same value; n is the f64 nearest to that value and i its integer part.", "quantifier": "all digit strings, all exponents of either sign, of any size", "why_tests_cant": "unbounded mantissas and exponents, including those beyond the range of f64 and of the exponent counter", "anchors": ["intl_pluralrules/src/operands.rs: impl TryFrom<&str> for PluralOperands"]}
{"id": "C88", "title": "Locales that are right for numbers of any length", "statement": "For the locales of an explicit list (70 cardinal, 63 ordinal) select gives the CLDR category of every decimal numeral the conversion accepts, however many digits it has. It also gives the CLDR category of the shortest decimal of every finite f64 and f32, of any size. For every other locale some accepted numeral gets a wrong category.", "quantifier": "all locales, both rule types, all accepted decimal numerals without bound on digits, all finite f64 and f32, both pointer widths and search modes", "why_tests_cant": "no bound on the length of the numerals, including those beyond the precision and the range of f64", "anchors": ["intl_pluralrules/src/lib.rs: PluralRules::select", "intl_pluralrules/src/operands.rs: impl TryFrom<&str> for PluralOperands", "intl_pluralrules/src/rules.rs: PRS_CARDINAL, PRS_ORDINAL"]}
{"id": "C89", "title": "Locales that are right for floating-point numbers of any size", "statement": "Except for the locales of explicit lists (f64: 27 cardinal, 11 ordinal; f32: 14 cardinal, 10 ordinal), select gives, for every finite f64 or f32 of any magnitude, the CLDR category of the shortest decimal of that float. Every listed locale gives a wrong category for some finite float of that type.", "quantifier": "all locales, both rule types, all finite f64 and f32, both pointer widths and search modes", "why_tests_cant": "2^64 and 2^32 inputs; the wrong ones above 2^53 depend on the last digits of the printed decimal and of the exact value", "anchors": ["intl_pluralrules/src/lib.rs: PluralRules::select", "intl_pluralrules/src/operands.rs: impl TryFrom<f64>, TryFrom<f32> for PluralOperands", "intl_pluralrules/src/rules.rs: PRS_CARDINAL, PRS_ORDINAL"]}
{"id": "C90", "title": "Operands of every finite f32", "statement": "For every nonzero finite f32 with shortest decimal d * 10^E the operands are exactly those of that decimal: n is the nearest f64, v = w is the number of decimal places, f = t are the fraction digits, and i is the integer part, capped at 2^64 - 1. There is no loss between 2^53 and 2^64, unlike for f64.", "quantifier": "all finite nonzero f32", "why_tests_cant": "the conversion goes through a decimal string and back through a rounding f64 parse; exactness between 2^53 and 2^64 needs a bound on the exponent of the shortest decimal", "anchors": ["intl_pluralrules/src/operands.rs: impl TryFrom<f32> for PluralOperands"]}
{"id": "C91", "title": "What the generated condition tests", "statement": "For every condition without empty lists, gen_pr panics with \"index out of bounds\" when a within or not-within relation has no range. Otherwise it returns code that compiles exactly when all integers in it fit in 64 bits and no modulus in it is 0, and that then evaluates, for all operands, to an explicit formula in the operands: values are compared with n as a float, or with the operand or its remainder (the remainder of i for n); ranges after n look at i whatever the modulus; f == 0 is required of n without modulus, outside the negation; within and not within use only the first range and take moduli of i. A condition with an empty list gives text that is not an expression.", "quantifier": "all conditions, all operands", "why_tests_cant": "all shapes of conditions at once, including the ones the CLDR files do not use, on all operands", "anchors": ["make_pluralrules/src/parser/gen_pr.rs: gen_pr, create_relation, create_and_condition, create_condition"]}
{"id": "C92", "title": "What every generated function does", "statement": "For every successful run on resources whose locale keys have a language and whose conditions have no empty list, the table of the output can be read and contains for each locale a function that compiles exactly when the conditions of its rules other than OTHER do, and that returns for all operands the category of the first such rule, in the order of the keys, whose formula of C91 holds, or OTHER. Conversely, a readable table implies that no condition has an empty list.", "quantifier": "all lists of resources, both rule types, all sorting functions, all operands", "why_tests_cant": "arbitrary JSON input, arbitrary operands, through text generation and reading back", "anchors": ["make_pluralrules/src/lib.rs: generate_rs", "make_pluralrules/src/parser/gen_rs.rs: gen_fn, gen_mid, gen_langid", "make_pluralrules/src/parser/gen_pr.rs: gen_pr"]}
{"id": "C93", "title": "The shipped library computes the formula of its CLDR data, for all inputs", "statement": "For every locale that create accepts there is exactly one entry in the CLDR file of that rule type, and select returns, for every input that converts to operands (strings, integers, floats including NaN and infinities, and hand-made PluralOperands with any field values), the category of the first rule of the entry, in the order of the keys and skipping OTHER, whose formula of C91 holds for the operands, else OTHER.", "quantifier": "all locales, both rule types, all inputs, all operand values", "why_tests_cant": "PluralOperands has public fields, so the inputs include operand sets that belong to no number", "anchors": ["intl_pluralrules/src/rules.rs", "intl_pluralrules/src/lib.rs: PluralRules::create, PluralRules::select", "make_pluralrules/src/parser/gen_pr.rs"]}
{"id": "C94", "title": "Which operands a locale looks at", "statement": "An explicit table gives for each locale and rule type the operands its function depends on. Two operand sets that agree on these get the same category; and for each operand of the table there are two operand sets that differ in it alone and get different categories. In particular no locale looks at w, ordinals never look at v or t, only Danish and Icelandic cardinals look at t, and Cornish ordinals mention f without depending on it.", "quantifier": "all locales, both rule types, all pairs of operand sets", "why_tests_cant": "independence is a statement about all pairs of operand values", "anchors": ["intl_pluralrules/src/rules.rs: PRS_CARDINAL, PRS_ORDINAL", "intl_pluralrules/src/lib.rs: PluralRules::select"]}
{"id": "C95", "title": "Generated code does not depend on the pointer width of the generating machine", "statement": "generate_rs gives the same result, text or panic, on machines with 32-bit and 64-bit pointers for all resources whose rule texts hold no number of 2^32 or more and whose version is not a number outside 32 bits, for every sorting function; among them the shipped CLDR 37 files and the test fixtures. Both bounds are needed: otherwise a 32-bit machine may panic where a 64-bit one does not, or generate different code silently.", "quantifier": "all lists of resources within the bounds, all sorting functions", "why_tests_cant": "tests run on one machine", "anchors": ["make_pluralrules/src/lib.rs: generate_rs", "make_pluralrules/src/parser/gen_rs.rs: gen_fn", "cldr_pluralrules_parser/src/parser.rs: value"]}
{"id": "C96", "title": "Generated code on 32-bit targets", "statement": "The code generated for a condition compiles for a target exactly when the condition of C91 holds and every number the code compares with v or w, or divides them by, fits in the target's usize; the same for every function of a generated table. The generated CLDR_VERSION always fits on a 64-bit target, and on a 32-bit one exactly when the version lies between 0 and 2^32. The shipped rules.rs compiles for both. Code that compiles for a 64-bit target may not compile for a 32-bit one.", "quantifier": "all conditions, all lists of resources, both targets", "why_tests_cant": "tests compile for one target", "anchors": ["make_pluralrules/src/parser/gen_pr.rs: gen_pr", "make_pluralrules/src/parser/gen_rs.rs: gen_fn", "intl_pluralrules/src/operands.rs: PluralOperands", "intl_pluralrules/src/rules.rs"]}
{"id": "C97", "title": "Which locales are hurt by negative exponents", "statement": "For the locales that look at no operand but n and i (table of C94), a number written with a negative exponent (\"15e-1\") gets the category of every plain numeral of the same value (\"1.5\", \"1.50\"), if the digits of the plain numeral, read as one integer, are below 2^53. For every other locale some such number gets another category than a plain numeral of the same value.", "quantifier": "all locales, both rule types, all digit strings with negative exponents (exponent below 65536 or at most 65000 digits), all numerals of the same value with digits below 2^53 and at most 307 decimals", "why_tests_cant": "infinitely many spellings for some 300 rules", "anchors": ["intl_pluralrules/src/operands.rs: TryFrom<&str>::try_from", "intl_pluralrules/src/rules.rs", "intl_pluralrules/src/lib.rs: PluralRules::select"]}
{"id": "C98", "title": "The type in which a number is passed makes no difference", "statement": "select gives the same for a String and the &str of the same text; for a signed integer that is not negative and the unsigned one of the same value, within isize; for an unsigned integer up to 2^53 and any decimal spelling of it, as &str or String, with or without a minus sign; and for any input and the PluralOperands it converts to.", "quantifier": "all PluralRules values, all texts, all integers in the ranges given, both pointer widths", "why_tests_cant": "all values of thirteen input types", "anchors": ["intl_pluralrules/src/lib.rs: PluralRules::select", "intl_pluralrules/src/operands.rs: impl_convert_type!(f32 f64 String), impl_integer_type!, impl_signed_integer_type!"]}
{"id": "C99", "title": "A table entry depends on the locale's own rules only", "statement": "In every file generate_rs produces, the entry of a locale is, token for token, a function of the locale's name and rule texts alone: it does not depend on the other locales, on the other inputs, on whether the rules are cardinal or ordinal, on the CLDR version or on the sorting algorithm. The table consists of exactly these entries.", "quantifier": "all inputs on which generate_rs succeeds, all sorting functions", "why_tests_cant": "quantifies over all pairs of input sets", "anchors": ["make_pluralrules/src/lib.rs: gen_type_rs", "make_pluralrules/src/parser/gen_rs.rs: gen_mid"]}
{"id": "C100", "title": "How the data is spread over input files is irrelevant", "statement": "Two lists of inputs that give the same version number (in any spelling) and the same cardinal and ordinal data, in any number of files and any order, either both make generate_rs panic or give the same output text.", "quantifier": "all pairs of input lists", "why_tests_cant": "quantifies over all ways to split the data", "anchors": ["make_pluralrules/src/lib.rs: generate_rs"]}
{"id": "C101", "title": "Locales with ordinal rules have cardinal rules", "statement": "Whenever create succeeds for a locale with ORDINAL, it succeeds for the same locale with CARDINAL; the converse is false.", "quantifier": "all locales", "why_tests_cant": "all locale identifiers", "anchors": ["intl_pluralrules/src/lib.rs: PluralRules::create", "intl_pluralrules/src/rules.rs"]}
{"id": "C102", "title": "The library over any regenerated rules file", "statement": "If rules.rs is replaced by the output of generate_rs for any CLDR input (no two locales differing in variants only), then create finds exactly the locales of the input (without variants, without root) with either published binary search, and select returns, for strings, integers and floats, the category UTS #35 assigns by the rule texts of that locale, provided the rules avoid the mistranslated relations; for other rules it returns what the described code tests.", "quantifier": "all CLDR inputs, locales, input types and numbers (digits below 2^53, at most 307 fraction digits; all u64; signed within isize; floats below 2^53)", "why_tests_cant": "quantifies over all future rule files and all numbers", "anchors": ["make_pluralrules/src/lib.rs: generate_rs", "intl_pluralrules/src/lib.rs: PluralRules::create, select", "intl_pluralrules/src/operands.rs"]}
{"id": "C103", "title": "Exactly which relations are generated faithfully", "statement": "For every relation with =, in, is or a negation of these and numbers below 2^49: the function generated for it agrees with UTS #35 on all numerals exactly when its operand is not n with a modulus (unless no listed number can occur) and it is not a negated range on plain n; it agrees on all integers exactly when every number covered by a range after n % m is, reduced, also listed as a single value. The shipped locales that put some integer in a wrong category are exactly those with a relation of the second kind, and those wrong for some numeral are exactly those with one of either kind, except he and iw.", "quantifier": "all relations with numbers below 2^49, all numerals with digits below 2^53; all 212 + 97 table entries", "why_tests_cant": "quantifies over all relations a future CLDR may contain and all numbers", "anchors": ["make_pluralrules/src/parser/gen_pr.rs: create_relation", "intl_pluralrules/src/rules.rs"]}
{"id": "C104", "title": "The text of a generated file", "statement": "Whatever the inputs, the output of generate_rs is one line of printable ASCII characters: a fixed text with the attributes, imports and the PluralRule type, the decimal CLDR version, the langid macro, and one table PRS_CARDINAL and one table PRS_ORDINAL, each present exactly when an input has data of that kind.", "quantifier": "all inputs on which generate_rs succeeds", "why_tests_cant": "quantifies over all CLDR inputs, in particular all strings in keys and rules", "anchors": ["make_pluralrules/src/parser/gen_rs.rs: gen_fn, create_pr_type", "make_pluralrules/src/lib.rs: generate_rs"]}
{"id": "C105", "title": "Where the unformatted output is not yet Rust", "statement": "The text generate_rs returns, and main writes with --ugly, contains a floating-point number spelled as three separate tokens (number, point, number, which Rust reads as a field of an integer until rustfmt joins them) exactly when some rule other than \"other\" of some locale compares n itself, without modulus, with a single number or with within. The output for the shipped CLDR data contains such numbers, the formatted rules.rs none.", "quantifier": "all conditions; all inputs on which generate_rs succeeds", "why_tests_cant": "quantifies over all CLDR inputs; the tests compare with a fixture in the same spelling and never compile it", "anchors": ["make_pluralrules/src/parser/gen_pr.rs: create_relation", "make_pluralrules/src/lib.rs: generate_rs"]}
{"id": "C106", "title": "Where the order in which the categories are tested matters", "statement": "A generated function tests its categories one after the other, in the alphabetical order of their names. For every shipped locale except cardinal lt, lv and prg, and every number that is read exactly, at most one test succeeds, so the tests could be in any order; in those three locales some number has two tests that succeed and its category is the one tested first. For integers at most one test succeeds in every locale. CLDR itself allows at most one category (C33).", "quantifier": "all shipped locales of both types; all strings, integers and floats that are read exactly; all orders of the tests", "why_tests_cant": "quantifies over all numbers and all orders of the tests", "anchors": ["intl_pluralrules/src/rules.rs: PRS_CARDINAL, PRS_ORDINAL", "intl_pluralrules/src/lib.rs: PluralRules::select", "make_pluralrules/src/lib.rs: gen_type_rs"]}
{"id": "C107", "title": "What changed between the CLDR 33 fixture and the shipped tables", "statement": "Against the tables of the fixture cldr_pluralrules_33.rs, the shipped tables (CLDR 37) have the additional locales cardinal an bho ceb ia osa pcm sat sc su and ordinal an gd ia kw sc, and lack cardinal bh. A locale of both gives every input the same result, except cardinal kw, mo, mr and ro. Of these, mo and ro still give every number that is read exactly the same category; kw and mr do not.", "quantifier": "all locales of both files; all inputs of select", "why_tests_cant": "quantifies over all inputs; no test compares the two files", "anchors": ["intl_pluralrules/src/rules.rs: PRS_CARDINAL, PRS_ORDINAL", "make_pluralrules/tests/fixtures/cldr_pluralrules_33.rs", "intl_pluralrules/src/lib.rs: PluralRules::create, PluralRules::select"]}
{"id": "C108", "title": "No part of a rule text is dropped silently", "statement": "For all inputs on which generate_rs succeeds, every rule text that has a condition is, as a whole, a CLDR rule; in particular a condition that uses an operand the generator does not know, such as e of CLDR 38, makes generate_rs panic instead of being generated in part. From the CLDR 33 and 37 files in the repository nothing is dropped.", "quantifier": "all lists of input texts, all sorting functions, all rule texts and what follows them", "why_tests_cant": "The set of rule texts is infinite, and the fixtures contain complete rules with known operands only.", "anchors": ["make_pluralrules/src/lib.rs: gen_type_rs (parse_plural_condition(...).expect)", "cldr_pluralrules_parser/src/lib.rs: parse_plural_condition", "cldr_pluralrules_parser/src/parser.rs: operand, and_condition, parse_condition"]}
{"id": "C109", "title": "A value passed as f32 selects like the same value passed as f64 or integer", "statement": "For all finite f32 x and f64 y of the same value, PluralOperands::try_from(x) and PluralOperands::try_from(y) are equal, and if the value is integral both equal the operands of that integer; so select gives the same category for all three.", "quantifier": "all finite f32 values, all plural rules, all pointer widths", "why_tests_cant": "There are 2^32 f32 values; the unit tests use a handful of small ones, for which the claim holds.", "anchors": ["intl_pluralrules/src/operands.rs: impl_convert_type!(f32 f64 String), try_from through to_string", "intl_pluralrules/src/lib.rs: PluralRules::select"]}
{"id": "C110", "title": "Rules with different meanings generate different code", "statement": "For all plural rule conditions on which the generator succeeds, if generate_rs gives the same code for two of them, then they hold for the same numbers according to UTS #35; and conversely the code depends on the rules only through the tests they make: synonymous operators (is, in, =; is not, not in, !=) and the order of values and ranges in a list do not show.", "quantifier": "all pairs of conditions, all decimal numbers, all inputs and sorting functions", "why_tests_cant": "There are infinitely many pairs of conditions; the tests compare a few generated files with fixtures.", "anchors": ["make_pluralrules/src/parser/gen_pr.rs: gen_pr, create_relation, convert_rangl, get_operator_symbol", "make_pluralrules/src/lib.rs: gen_type_rs, generate_rs", "cldr_pluralrules_parser/src/ast.rs: Operator, RangeListItem"]}
{"id": "C111", "title": "A resource that is serialised is read back unchanged", "statement": "For every Resource, serde_json::to_string of it is a JSON text from which parse_plurals_resource_from_string returns the same Resource. For every text that is accepted, different resources are written differently, and generate_rs on the rewritten inputs gives exactly what it gives on the originals.", "quantifier": "all resources, with any bytes in their strings; all lists of input texts, all sorting functions, both pointer widths", "why_tests_cant": "All strings, including control characters and quotes, and all maps; no test serialises.", "anchors": ["make_pluralrules/src/parser/resource.rs: derive(Serialize, Deserialize) on Resource, Version, Supplemental", "make_pluralrules/src/parser/resource.rs: parse_plurals_resource_from_string", "make_pluralrules/src/lib.rs: generate_rs"]}
{"id": "C112", "title": "A failed generation reports the first fault of the input", "statement": "Whenever generate_rs panics, the message is that of the first fault: inputs are examined in order, for each first whether it is a resource text, then its version against the previous ones, then its cardinal and then its ordinal part; within a part all locale keys come before any of the rules, then the locales in the order of their identifiers and the rules in the order of their names, and last whether that type was already given; a bad locale key is named in the message. Conversely every input with a fault makes generate_rs panic, and if no two keys of a resource denote the same locale, the message is exactly that one, for every sorting function; with two such keys it can depend on the sorting function.", "quantifier": "all lists of input texts, all sorting functions, both pointer widths", "why_tests_cant": "All combinations of faults in all inputs; the tests only panic on one input at a time, if at all.", "anchors": ["make_pluralrules/src/lib.rs: generate_rs, gen_type_rs", "make_pluralrules/src/parser/gen_rs.rs: gen_fn", "make_pluralrules/src/parser/gen_pr.rs: gen_pr, convert_rangl", "make_pluralrules/src/parser/resource.rs: parse_plurals_resource_from_string"]}
{"id": "C113", "title": "What the conversions remember of a number", "statement": "Different numbers have different operands: two accepted decimal numerals convert to the same PluralOperands only if they have the same integer value and the same visible fraction digits, two u64 only if equal, two i64 or two f64 or two f32 only if equal up to sign. Exceptions, exactly: integer texts with the same nearest f64 (from 2^53 on), and on 32-bit targets i64 that are equal up to sign modulo 2^32. Texts without a decimal point have equal operands iff their n is equal.", "quantifier": "all pairs of accepted texts, all pairs of integers, all pairs of f64 and f32 including infinities and NaN", "why_tests_cant": "Pairs of 64-bit numbers and of texts of any length.", "anchors": ["intl_pluralrules/src/operands.rs: TryFrom<&str>, impl_integer_type!, impl_signed_integer_type!, impl_convert_type!"]}
{"id": "C114", "title": "Rule texts are put together with or and and", "statement": "For all rule texts s1 (without samples) and s2 that parse_plural_rule accepts, s1 ' or ' s2 is accepted, its condition is the alternatives of s1 followed by those of s2, its samples are those of s2, and it holds for a number iff one of the two does; s1 ' and ' s2 is accepted, and the last alternative of s1 and the first of s2 become one. Conversely every accepted text can be cut between any two of its alternatives, and a text with one alternative between any two of its relations, into texts that are accepted with the corresponding parts.", "quantifier": "all pairs of accepted rule texts with values in every relation, any spaces and tabs around the word, both pointer widths", "why_tests_cant": "Pairs of texts of any length; the tests parse fixed examples.", "anchors": ["cldr_pluralrules_parser/src/parser.rs: parse_condition, parse_and_condition, parse_rule", "cldr_pluralrules_parser/src/lib.rs: parse_plural_rule"]}
{"id": "C115", "title": "What the @integer lists of the CLDR data say", "statement": "In the CLDR data the crate ships, every integer on the '@integer' list of a rule has that rule's category. The list ends with an ellipsis exactly when infinitely many integers have the category, and a list without ellipsis (or a missing list) names all of them: PluralRules::select gives that category to the listed integers and to no others.", "quantifier": "every locale, category and rule text of the shipped data as parse_plural_rule reads it; every natural number; for select every u64", "why_tests_cant": "Completeness and infinity speak of all integers; a test can only try finitely many of them for finitely many locales.", "anchors": ["cldr_pluralrules_parser/src/parser.rs:131-167", "cldr_pluralrules_parser/src/lib.rs:79-86", "intl_pluralrules/cldr_data/cldr_pluralrules_cardinals.json", "intl_pluralrules/cldr_data/cldr_pluralrules_ordinals.json", "intl_pluralrules/src/lib.rs:140-150"]}
{"id": "C116", "title": "What the @decimal lists of the CLDR data say", "statement": "In the cardinal CLDR data the crate ships, a category of a locale has an '@decimal' list exactly when some number written with fraction digits has the category; the list ends with an ellipsis exactly when such numbers have unbounded integer parts. PluralRules::select gives a category to some string with a decimal point exactly when it has a list, and never gives a category without list to a number with visible fraction digits, in whatever type it is passed. Ordinal rules have no '@decimal' lists.", "quantifier": "every locale and category of the shipped data, also the locales that are wrong for some numbers; every number of fraction digits and every integer part; every input of select whose operand v is not 0", "why_tests_cant": "The absence of a list claims something about all numbers with fractions, of which there are infinitely many.", "anchors": ["cldr_pluralrules_parser/src/parser.rs:131-167", "intl_pluralrules/cldr_data/cldr_pluralrules_cardinals.json", "intl_pluralrules/cldr_data/cldr_pluralrules_ordinals.json", "intl_pluralrules/src/rules.rs", "intl_pluralrules/src/lib.rs:140-150"]}
{"id": "C117", "title": "Only the last digits of the integer part matter", "statement": "If the rules of a locale take remainders only by divisors of P and compare what is not reduced only with constants below B, then two numbers with the same fraction digits whose integer parts are at least B and have the same remainder by P get the same category: from UTS #35, from the code generated for the rules, and from PluralRules::select on strings and on unsigned integers. All shipped locales satisfy this with B = 20001 and P = 1000000, and all but Breton and Cornish cardinals with B = 1001 and P = 1000.", "quantifier": "all rules, all B up to 2^53, all P; all strings of decimal numerals with any number of fraction digits (integer strings up to 2^53, which the conversion keeps exactly), all unsigned integers; every shipped locale and both rule types", "why_tests_cant": "Quantifies over all pairs of numbers, with all fractions, and over all rules, not only the shipped ones.", "anchors": ["make_pluralrules/src/parser/gen_rs.rs", "intl_pluralrules/src/rules.rs", "intl_pluralrules/src/operands.rs:73-142", "intl_pluralrules/src/lib.rs:140-150"]}
{"id": "C118", "title": "Finitely much of a number decides its category", "statement": "In every shipped locale the category of a number depends only on its integer part up to a bound and beyond that on its last digits, on the number of fraction digits up to three, and on the fraction digits themselves if they are 0 or 1 and otherwise on the last two. Hence, to know that PluralRules::select agrees with CLDR for a locale on all numbers of f64 precision, it is enough to know it for integer parts below 1020001 (2001 for all locales but Breton and Cornish cardinals) with at most three fraction digits.", "quantifier": "all pairs of numbers passed as strings, integers or floats that the conversion reads exactly, all shipped locales and both rule types; stated for all rules that can be decided from what is kept, with any bounds and periods", "why_tests_cant": "It is the reason why a finite test suite could be enough, and itself a statement about all numbers.", "anchors": ["make_pluralrules/src/parser/gen_rs.rs", "intl_pluralrules/src/rules.rs", "intl_pluralrules/src/operands.rs:73-122", "intl_pluralrules/src/lib.rs:140-150"]}
{"id": "C119", "title": "Debug texts tell values apart", "statement": "The text {:?} writes for n in PluralOperands reads back, by f64::from_str, as the same number (NaN, infinities and -0.0 included), always looks like a float, and two PluralOperands, two PluralCategory values or two syntax trees (Rule, Condition, Relation, Samples and their parts) with the same Debug text are the same. So an assert_eq on operands that fails and shows the same text twice is about NaN.", "quantifier": "all f64 values, all operands, all syntax trees with any number of conditions, relations, list items and samples and values of any size; both forms of {:?} for floats (before and since Rust 1.58)", "why_tests_cant": "Injectivity over unbounded trees and over all 2^64 floats.", "anchors": ["intl_pluralrules/src/lib.rs:42-50", "intl_pluralrules/src/operands.rs:57-71", "cldr_pluralrules_parser/src/ast.rs:1-340"]}
{"id": "C120", "title": "What each part of the shipped rules is for", "statement": "Take an alternative, a relation or a list item out of the plural rules of a shipped locale. By UTS #35 the category of some number changes, except for 19 listed parts (of 836), which change nothing for any number. For select with code generated from the changed rules the same holds with 35 listed parts: the 19, parts that an earlier tested category makes superfluous, and two (Belarusian and Lithuanian) that the misread ranges of C47 make superfluous.", "quantifier": "all shipped locales of both types, all parts of their rules, all numbers (numerals for the code; the idle parts for inputs of all types)", "why_tests_cant": "That a part changes nothing is a claim about all numbers; that every other part does needs a witness for each of some 800 parts.", "anchors": ["intl_pluralrules/cldr_data/cldr_pluralrules_cardinals.json", "intl_pluralrules/cldr_data/cldr_pluralrules_ordinals.json", "intl_pluralrules/src/rules.rs", "make_pluralrules/src/parser/gen_pr.rs:80-190"]}
{"id": "C121", "title": "Exactly which numerals of any length get a wrong category", "statement": "Take an accepted decimal numeral of any length, with an integer part the conversion keeps (a point, or at most 2^53). If the number is an integer, or the binary64 number nearest to it is not, select answers what UTS #35 prescribes unless the tables of C79 list the number for the locale. If the number has a fraction but is rounded to an integer k, it is wrong exactly if the rules of the locale compare n itself with k and the table of rounded numbers says wrong (almost always), or they do not compare n with k and C79 lists the number. Every entry of the table that says wrong is met by some numeral; numerals with at most 2^53 as digits are never rounded so.", "quantifier": "all shipped locales of both types, all accepted numerals of any length with a kept integer part, both table searches, both pointer widths", "why_tests_cant": "Numerals of unbounded length; whether a long one is rounded to an integer is a question about real numbers.", "anchors": ["intl_pluralrules/src/operands.rs:73-118", "intl_pluralrules/src/rules.rs", "intl_pluralrules/src/lib.rs:124-137", "make_pluralrules/src/parser/gen_pr.rs:80-190"]}
{"id": "C122", "title": "Integers written out in full", "statement": "An integer passed as a text without decimal point, of any length, gets the category of the u64 it is read as: the nearest binary64 number, or 2^64 - 1 if that is larger. Up to 2^53 that is the integer itself. The category is the one UTS #35 prescribes for the integer read, unless C79 lists that one, and then it is right for the text exactly if both integers have the same category. In all locales but an explicit list (29 cardinal, 11 ordinal: those with a test of the last digits) integers of any length are right; in every locale of the list some integer between 2^53 and 2^64 gets a wrong category.", "quantifier": "all shipped locales of both types, all integer texts of any length (also beyond the range of f64), both table searches, both pointer widths", "why_tests_cant": "Texts of unbounded length, in 309 locale and type pairs; the wrong answers start at 2^53.", "anchors": ["intl_pluralrules/src/operands.rs:73-118", "intl_pluralrules/src/rules.rs", "intl_pluralrules/src/lib.rs:124-137"]}
{"id": "C123", "title": "Exactly which within relations are generated faithfully", "statement": "For every relation with within or not within, at least one range and numbers below 2^49: the function generated for it agrees with UTS #35 on all numerals exactly under a criterion on the AST; for n and i also on all integers exactly under one. Without modulus, within on n or i is right exactly if every listed number lies in the first range, and not within is never right for any operand, for n and i not even on integers. 'n % m within a..b' is right for fractions exactly if the range is empty, starts at m or later, or ends at m or later. '% m not within a..b' on n or i is right for integers exactly if the range has all remainders. 'v % m within a..b' (or w, f) looks at i and is right exactly if the range has no remainder or all of them.", "quantifier": "all within and not within relations with numbers below 2^49; operands n, i: all numerals with digits below 2^53, all integers below 2^53; operands v, w, f, t: all accepted numerals of any length", "why_tests_cant": "quantifies over all relations a future CLDR may contain and all numbers; no shipped rule uses within", "anchors": ["make_pluralrules/src/parser/gen_pr.rs:40-47 (get_operator_symbol)", "make_pluralrules/src/parser/gen_pr.rs:85-113 (create_relation, within)"]}
{"id": "C124", "title": "Rules whose relations are all generated faithfully", "statement": "If every relation of a condition is right by the criterion of C103 or C123 (for all numbers, or for integers only when it stands beside a relation that only integers satisfy, such as v = 0), the code generated for the condition agrees with UTS #35 on all numerals and all 64-bit integers. A library regenerated from data consisting of such conditions creates rules for exactly the locales of the data, and select follows the data for every input type. within and ranges after n % m are included.", "quantifier": "all conditions and all JSON inputs with numbers below 2^49 and relations as described, every sorting function, both table searches, both pointer widths, all numerals with digits below 2^53, all 64-bit integers, all f32 and f64 below 2^53", "why_tests_cant": "quantifies over all data a future CLDR release may contain, and all numbers", "anchors": ["make_pluralrules/src/parser/gen_pr.rs", "make_pluralrules/src/parser/gen_rs.rs", "intl_pluralrules/src/lib.rs"]}
{"id": "C125", "title": "Which locales answer alike for integers", "statement": "Take the cardinal or ordinal rules of one locale and the cardinal or ordinal rules of another. PluralRules::select gives every integer the same category with both exactly when they are on one line of a given table (48 lines). In particular the cardinal and ordinal rules of one locale agree on all integers exactly in id, in, ja, km, ko, my, th, yue and zh.", "quantifier": "all pairs of shipped locales and rule types, both table searches, all 64-bit unsigned integers", "why_tests_cant": "both directions: sameness is for all 2^64 integers, and the table is complete for 309 times 309 pairs of rules", "anchors": ["intl_pluralrules/src/lib.rs", "intl_pluralrules/src/rules.rs"]}
{"id": "C126", "title": "select tells apart the locales that CLDR tells apart", "statement": "Two locales have cardinal (or ordinal) rules of the same UTS #35 meaning for every number exactly when PluralRules::select answers alike for every input; misread rules (C30) never merge or split two locales. For integers only, rules on which select agrees have the same meaning, cardinal or ordinal; the converse holds except that the cardinals of Belarusian mean the same as those of Russian and Ukrainian, and select separates them (22).", "quantifier": "all pairs of shipped locales and rule types, all decimals, all inputs of select, both table searches and pointer widths", "why_tests_cant": "compares all pairs of locales on all numbers, and two independent meanings of the same data", "anchors": ["intl_pluralrules/src/rules.rs", "intl_pluralrules/src/lib.rs", "make_pluralrules/src/parser/gen_pr.rs"]}
{"id": "C127", "title": "What a generated file tells about its input", "statement": "If generate_rs produces the same file from two inputs, then the CLDR versions are the same integer, the same rule types have tables, the tables have equally many locales, and every locale of one input is matched by one of the other with the same language, script and region, the same categories in the same order (other than 'other'), and for each category a condition with the same generated code, hence the same parts (C110). Where the code shows everything, the matched rules have the same UTS #35 meaning.", "quantifier": "all pairs of inputs of any number of JSON texts, all sorting functions, both pointer widths, all numbers", "why_tests_cant": "a converse over all pairs of inputs: it excludes every collision of the generator apart from those listed", "anchors": ["make_pluralrules/src/parser/gen_rs.rs", "make_pluralrules/src/parser/gen_pr.rs", "make_pluralrules/src/lib.rs"]}
{"id": "C128", "title": "Exactly when two inputs give the same file", "statement": "If generate_rs succeeds on two inputs, and the keys of the first name pairwise different (language, script, region) within each rule type, then the two files are equal exactly when the CLDR versions are the same integer and, for each rule type, the inputs have tables with equally many locales that match: same language, script and region, same categories in order (other than 'other') and conditions with the same generated code. Without the condition on the keys the file depends on how the sorting algorithm leaves equal keys.", "quantifier": "all pairs of inputs of any number of JSON texts, all sorting functions, both pointer widths", "why_tests_cant": "an equivalence over all pairs of inputs and all sorting functions", "anchors": ["make_pluralrules/src/parser/gen_rs.rs", "make_pluralrules/src/lib.rs"]}
{"id": "C129", "title": "How often integers get a wrong category", "statement": "For the eleven locales whose cardinal rules are misread on integers, and for Cornish ordinals, a table gives a start, a length and a number: from the start on, among any that many consecutive u64 integers exactly the given number get a category from select that CLDR does not prescribe (for example 97 of every 100 in Arabic from 100 on, 81 of 100 in Belarusian from 15 on, 20 of 100000 in Cornish), and the number of wrong integers below start + k * length is the given one for every k. No other locale gets any u64 wrong.", "quantifier": "all shipped locales and rule types, all u64 windows and prefixes, both table searches and pointer widths", "why_tests_cant": "counts over ranges of up to 2^64 integers at every position", "anchors": ["intl_pluralrules/src/rules.rs", "intl_pluralrules/src/lib.rs", "make_pluralrules/src/parser/gen_pr.rs"]}
{"id": "C130", "title": "Which categories are taken for which on integers", "statement": "Whenever select gives a u64 integer another category than the CLDR rules of the shipped JSON, the two categories are a pair of a fixed table for that locale: cardinal ar, ars FEW or MANY taken for OTHER; be, mt MANY or FEW for OTHER; br FEW for OTHER and OTHER for FEW; kw TWO for OTHER; lt FEW for OTHER and OTHER for ONE; lv, prg ZERO for OTHER; mo, ro FEW for OTHER; ordinal kw ONE for OTHER. Every pair of the table occurs for some integer below 2^17.", "quantifier": "all shipped locales and rule types, all u64 integers, both table searches and pointer widths", "why_tests_cant": "excludes every other confusion for all 2^64 integers in every locale", "anchors": ["intl_pluralrules/src/rules.rs", "intl_pluralrules/src/lib.rs", "make_pluralrules/src/parser/gen_pr.rs"]}
{"id": "C131", "title": "Which categories stop, and after which integer", "statement": "A table lists, for every shipped locale, the categories that only finitely many integers get from select, each with the largest such integer (for example ONE 1 in English, MANY 800 in Italian ordinals, FEW 4 in Belarusian, FEW 9 in Lithuanian, MANY 99 in Arabic): that integer gets the category and no larger u64 does. Every other category that some integer gets is met in every run of 100 consecutive u64 integers from 801 on (1000 for Azerbaijani ordinals, 1000000 for Breton from 100 on and for Cornish from 20001 on).", "quantifier": "all shipped locales, rule types and categories, all u64 integers and runs, both table searches and pointer widths", "why_tests_cant": "no larger integer up to 2^64, and every run at any position", "anchors": ["intl_pluralrules/src/rules.rs", "intl_pluralrules/src/lib.rs"]}
{"id": "C132", "title": "Which categories are taken for which on fractions", "statement": "Whenever select gives a number with a nonzero fraction (a decimal string whose digits fit 2^53, or an f64 below 2^53 by its shortest decimal) another category than the CLDR rules of the shipped JSON, the pair of categories is in a fixed table for that locale. In all but three locales CLDR says OTHER and select some other category; in Lithuanian CLDR says MANY and select FEW; in Latvian and Prussian OTHER is taken for ONE or ZERO, and ZERO for ONE. Every pair of the table occurs.", "quantifier": "all shipped locales and rule types, all such decimal strings and floats, both table searches and pointer widths", "why_tests_cant": "excludes every other confusion for all fractions in every locale", "anchors": ["intl_pluralrules/src/rules.rs", "intl_pluralrules/src/operands.rs", "intl_pluralrules/src/lib.rs", "make_pluralrules/src/parser/gen_pr.rs"]}
{"id": "C133", "title": "Categories that stop although CLDR's go on", "statement": "Of the categories that select gives to finitely many integers only (C131), eleven go on by CLDR: FEW and MANY in ar, ars and mt, FEW in be, lt, mo and ro, and ONE for Cornish ordinals; select gives them to no integer above the listed one (for example 10 and 99 in Arabic), while CLDR gives them to some integer in every 100 from 101 on. Every other category that stops does so after the same integer by CLDR.", "quantifier": "all shipped locales, rule types and categories, all u64 integers and all runs of 100 integers, both table searches and pointer widths", "why_tests_cant": "about all larger integers on one side and every run at any position on the other", "anchors": ["intl_pluralrules/src/rules.rs", "intl_pluralrules/src/lib.rs", "make_pluralrules/src/parser/gen_pr.rs"]}
{"id": "C134", "title": "The first wrong integer and the longest run of wrong ones", "statement": "For each locale with wrongly categorised integers a table gives the smallest u64 integer for which select's category is not the one CLDR prescribes (103 in Arabic, 15 in Belarusian, 23 in Breton, 22 in Lithuanian, 101000 in Cornish, ...), and the largest number of consecutive wrong integers (97 in Arabic, 18 in Romanian, 9 in Belarusian, 1 in Cornish, ...): such a run occurs, and among any one more consecutive u64 integers at least one is right. Every locale with a wrong integer is listed.", "quantifier": "all shipped locales and rule types, all u64 integers and runs, both table searches and pointer widths", "why_tests_cant": "runs at every position up to 2^64, and all integers below the first wrong one", "anchors": ["intl_pluralrules/src/rules.rs", "intl_pluralrules/src/lib.rs", "make_pluralrules/src/parser/gen_pr.rs"]}
