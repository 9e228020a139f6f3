(** * make_pluralrules/tests/fixtures/cldr_pluralrules_within_test.json, verbatim.

    The file as the list of its lines; [within_json] joins them with newlines. *)
From Verif Require Import Base.

Definition within_json_lines : list string := [
  "{";
  "  ""supplemental"": {";
  "    ""version"": {";
  "      ""_number"": ""$Revision: 13898 $"",";
  "      ""_unicodeVersion"": ""10.0.0"",";
  "      ""_cldrVersion"": ""0""";
  "    },";
  "    ""plurals-type-cardinal"": {";
  "      ""und"": {";
  "        ""pluralRule-count-one"": ""n = 1 @integer 1 @decimal 1.0, 1.00, 1.000, 1.0000"",";
  "        ""pluralRule-count-two"": ""n % 10 within 1..2 @ 11, 12, 21, 22..."",";
  "        ""pluralRule-count-few"": ""n within 2..10 and i not within 8..9 @ 1.1, 1.2, 2, 3, 4, 5, 6, 7, 10"",";
  "        ""pluralRule-count-other"": "" @integer 0, 2~16, 100, 1000, 10000, 100000, 1000000, … @decimal 0.0~0.9, 1.1~1.6, 10.0, 100.0, 1000.0, 10000.0, 100000.0, 1000000.0, …""";
  "      }";
  "    }";
  "  }";
  "}";
  ""
]%string.

Definition within_json : bytes := join_lines (List.map bs within_json_lines).
