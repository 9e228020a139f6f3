(** * intl_pluralrules/cldr_data/cldr_pluralrules_cardinals.json, verbatim.

    The file as the list of its lines; [cardinals37_json] joins them with newlines. *)
From Verif Require Import Base.

Definition cardinals37_json_lines : list string := [
  "{";
  "  ""supplemental"": {";
  "    ""version"": {";
  "      ""_unicodeVersion"": ""13.0.0"",";
  "      ""_cldrVersion"": ""37""";
  "    },";
  "    ""plurals-type-cardinal"": {";
  "      ""af"": {";
  "        ""pluralRule-count-one"": ""n = 1 @integer 1 @decimal 1.0, 1.00, 1.000, 1.0000"",";
  "        ""pluralRule-count-other"": "" @integer 0, 2~16, 100, 1000, 10000, 100000, 1000000, … @decimal 0.0~0.9, 1.1~1.6, 10.0, 100.0, 1000.0, 10000.0, 100000.0, 1000000.0, …""";
  "      },";
  "      ""ak"": {";
  "        ""pluralRule-count-one"": ""n = 0..1 @integer 0, 1 @decimal 0.0, 1.0, 0.00, 1.00, 0.000, 1.000, 0.0000, 1.0000"",";
  "        ""pluralRule-count-other"": "" @integer 2~17, 100, 1000, 10000, 100000, 1000000, … @decimal 0.1~0.9, 1.1~1.7, 10.0, 100.0, 1000.0, 10000.0, 100000.0, 1000000.0, …""";
  "      },";
  "      ""am"": {";
  "        ""pluralRule-count-one"": ""i = 0 or n = 1 @integer 0, 1 @decimal 0.0~1.0, 0.00~0.04"",";
  "        ""pluralRule-count-other"": "" @integer 2~17, 100, 1000, 10000, 100000, 1000000, … @decimal 1.1~2.6, 10.0, 100.0, 1000.0, 10000.0, 100000.0, 1000000.0, …""";
  "      },";
  "      ""an"": {";
  "        ""pluralRule-count-one"": ""n = 1 @integer 1 @decimal 1.0, 1.00, 1.000, 1.0000"",";
  "        ""pluralRule-count-other"": "" @integer 0, 2~16, 100, 1000, 10000, 100000, 1000000, … @decimal 0.0~0.9, 1.1~1.6, 10.0, 100.0, 1000.0, 10000.0, 100000.0, 1000000.0, …""";
  "      },";
  "      ""ar"": {";
  "        ""pluralRule-count-zero"": ""n = 0 @integer 0 @decimal 0.0, 0.00, 0.000, 0.0000"",";
  "        ""pluralRule-count-one"": ""n = 1 @integer 1 @decimal 1.0, 1.00, 1.000, 1.0000"",";
  "        ""pluralRule-count-two"": ""n = 2 @integer 2 @decimal 2.0, 2.00, 2.000, 2.0000"",";
  "        ""pluralRule-count-few"": ""n % 100 = 3..10 @integer 3~10, 103~110, 1003, … @decimal 3.0, 4.0, 5.0, 6.0, 7.0, 8.0, 9.0, 10.0, 103.0, 1003.0, …"",";
  "        ""pluralRule-count-many"": ""n % 100 = 11..99 @integer 11~26, 111, 1011, … @decimal 11.0, 12.0, 13.0, 14.0, 15.0, 16.0, 17.0, 18.0, 111.0, 1011.0, …"",";
  "        ""pluralRule-count-other"": "" @integer 100~102, 200~202, 300~302, 400~402, 500~502, 600, 1000, 10000, 100000, 1000000, … @decimal 0.1~0.9, 1.1~1.7, 10.1, 100.0, 1000.0, 10000.0, 100000.0, 1000000.0, …""";
  "      },";
  "      ""ars"": {";
  "        ""pluralRule-count-zero"": ""n = 0 @integer 0 @decimal 0.0, 0.00, 0.000, 0.0000"",";
  "        ""pluralRule-count-one"": ""n = 1 @integer 1 @decimal 1.0, 1.00, 1.000, 1.0000"",";
  "        ""pluralRule-count-two"": ""n = 2 @integer 2 @decimal 2.0, 2.00, 2.000, 2.0000"",";
  "        ""pluralRule-count-few"": ""n % 100 = 3..10 @integer 3~10, 103~110, 1003, … @decimal 3.0, 4.0, 5.0, 6.0, 7.0, 8.0, 9.0, 10.0, 103.0, 1003.0, …"",";
  "        ""pluralRule-count-many"": ""n % 100 = 11..99 @integer 11~26, 111, 1011, … @decimal 11.0, 12.0, 13.0, 14.0, 15.0, 16.0, 17.0, 18.0, 111.0, 1011.0, …"",";
  "        ""pluralRule-count-other"": "" @integer 100~102, 200~202, 300~302, 400~402, 500~502, 600, 1000, 10000, 100000, 1000000, … @decimal 0.1~0.9, 1.1~1.7, 10.1, 100.0, 1000.0, 10000.0, 100000.0, 1000000.0, …""";
  "      },";
  "      ""as"": {";
  "        ""pluralRule-count-one"": ""i = 0 or n = 1 @integer 0, 1 @decimal 0.0~1.0, 0.00~0.04"",";
  "        ""pluralRule-count-other"": "" @integer 2~17, 100, 1000, 10000, 100000, 1000000, … @decimal 1.1~2.6, 10.0, 100.0, 1000.0, 10000.0, 100000.0, 1000000.0, …""";
  "      },";
  "      ""asa"": {";
  "        ""pluralRule-count-one"": ""n = 1 @integer 1 @decimal 1.0, 1.00, 1.000, 1.0000"",";
  "        ""pluralRule-count-other"": "" @integer 0, 2~16, 100, 1000, 10000, 100000, 1000000, … @decimal 0.0~0.9, 1.1~1.6, 10.0, 100.0, 1000.0, 10000.0, 100000.0, 1000000.0, …""";
  "      },";
  "      ""ast"": {";
  "        ""pluralRule-count-one"": ""i = 1 and v = 0 @integer 1"",";
  "        ""pluralRule-count-other"": "" @integer 0, 2~16, 100, 1000, 10000, 100000, 1000000, … @decimal 0.0~1.5, 10.0, 100.0, 1000.0, 10000.0, 100000.0, 1000000.0, …""";
  "      },";
  "      ""az"": {";
  "        ""pluralRule-count-one"": ""n = 1 @integer 1 @decimal 1.0, 1.00, 1.000, 1.0000"",";
  "        ""pluralRule-count-other"": "" @integer 0, 2~16, 100, 1000, 10000, 100000, 1000000, … @decimal 0.0~0.9, 1.1~1.6, 10.0, 100.0, 1000.0, 10000.0, 100000.0, 1000000.0, …""";
  "      },";
  "      ""be"": {";
  "        ""pluralRule-count-one"": ""n % 10 = 1 and n % 100 != 11 @integer 1, 21, 31, 41, 51, 61, 71, 81, 101, 1001, … @decimal 1.0, 21.0, 31.0, 41.0, 51.0, 61.0, 71.0, 81.0, 101.0, 1001.0, …"",";
  "        ""pluralRule-count-few"": ""n % 10 = 2..4 and n % 100 != 12..14 @integer 2~4, 22~24, 32~34, 42~44, 52~54, 62, 102, 1002, … @decimal 2.0, 3.0, 4.0, 22.0, 23.0, 24.0, 32.0, 33.0, 102.0, 1002.0, …"",";
  "        ""pluralRule-count-many"": ""n % 10 = 0 or n % 10 = 5..9 or n % 100 = 11..14 @integer 0, 5~19, 100, 1000, 10000, 100000, 1000000, … @decimal 0.0, 5.0, 6.0, 7.0, 8.0, 9.0, 10.0, 11.0, 100.0, 1000.0, 10000.0, 100000.0, 1000000.0, …"",";
  "        ""pluralRule-count-other"": ""   @decimal 0.1~0.9, 1.1~1.7, 10.1, 100.1, 1000.1, …""";
  "      },";
  "      ""bem"": {";
  "        ""pluralRule-count-one"": ""n = 1 @integer 1 @decimal 1.0, 1.00, 1.000, 1.0000"",";
  "        ""pluralRule-count-other"": "" @integer 0, 2~16, 100, 1000, 10000, 100000, 1000000, … @decimal 0.0~0.9, 1.1~1.6, 10.0, 100.0, 1000.0, 10000.0, 100000.0, 1000000.0, …""";
  "      },";
  "      ""bez"": {";
  "        ""pluralRule-count-one"": ""n = 1 @integer 1 @decimal 1.0, 1.00, 1.000, 1.0000"",";
  "        ""pluralRule-count-other"": "" @integer 0, 2~16, 100, 1000, 10000, 100000, 1000000, … @decimal 0.0~0.9, 1.1~1.6, 10.0, 100.0, 1000.0, 10000.0, 100000.0, 1000000.0, …""";
  "      },";
  "      ""bg"": {";
  "        ""pluralRule-count-one"": ""n = 1 @integer 1 @decimal 1.0, 1.00, 1.000, 1.0000"",";
  "        ""pluralRule-count-other"": "" @integer 0, 2~16, 100, 1000, 10000, 100000, 1000000, … @decimal 0.0~0.9, 1.1~1.6, 10.0, 100.0, 1000.0, 10000.0, 100000.0, 1000000.0, …""";
  "      },";
  "      ""bho"": {";
  "        ""pluralRule-count-one"": ""n = 0..1 @integer 0, 1 @decimal 0.0, 1.0, 0.00, 1.00, 0.000, 1.000, 0.0000, 1.0000"",";
  "        ""pluralRule-count-other"": "" @integer 2~17, 100, 1000, 10000, 100000, 1000000, … @decimal 0.1~0.9, 1.1~1.7, 10.0, 100.0, 1000.0, 10000.0, 100000.0, 1000000.0, …""";
  "      },";
  "      ""bm"": {";
  "        ""pluralRule-count-other"": "" @integer 0~15, 100, 1000, 10000, 100000, 1000000, … @decimal 0.0~1.5, 10.0, 100.0, 1000.0, 10000.0, 100000.0, 1000000.0, …""";
  "      },";
  "      ""bn"": {";
  "        ""pluralRule-count-one"": ""i = 0 or n = 1 @integer 0, 1 @decimal 0.0~1.0, 0.00~0.04"",";
  "        ""pluralRule-count-other"": "" @integer 2~17, 100, 1000, 10000, 100000, 1000000, … @decimal 1.1~2.6, 10.0, 100.0, 1000.0, 10000.0, 100000.0, 1000000.0, …""";
  "      },";
  "      ""bo"": {";
  "        ""pluralRule-count-other"": "" @integer 0~15, 100, 1000, 10000, 100000, 1000000, … @decimal 0.0~1.5, 10.0, 100.0, 1000.0, 10000.0, 100000.0, 1000000.0, …""";
  "      },";
  "      ""br"": {";
  "        ""pluralRule-count-one"": ""n % 10 = 1 and n % 100 != 11,71,91 @integer 1, 21, 31, 41, 51, 61, 81, 101, 1001, … @decimal 1.0, 21.0, 31.0, 41.0, 51.0, 61.0, 81.0, 101.0, 1001.0, …"",";
  "        ""pluralRule-count-two"": ""n % 10 = 2 and n % 100 != 12,72,92 @integer 2, 22, 32, 42, 52, 62, 82, 102, 1002, … @decimal 2.0, 22.0, 32.0, 42.0, 52.0, 62.0, 82.0, 102.0, 1002.0, …"",";
  "        ""pluralRule-count-few"": ""n % 10 = 3..4,9 and n % 100 != 10..19,70..79,90..99 @integer 3, 4, 9, 23, 24, 29, 33, 34, 39, 43, 44, 49, 103, 1003, … @decimal 3.0, 4.0, 9.0, 23.0, 24.0, 29.0, 33.0, 34.0, 103.0, 1003.0, …"",";
  "        ""pluralRule-count-many"": ""n != 0 and n % 1000000 = 0 @integer 1000000, … @decimal 1000000.0, 1000000.00, 1000000.000, …"",";
  "        ""pluralRule-count-other"": "" @integer 0, 5~8, 10~20, 100, 1000, 10000, 100000, … @decimal 0.0~0.9, 1.1~1.6, 10.0, 100.0, 1000.0, 10000.0, 100000.0, …""";
  "      },";
  "      ""brx"": {";
  "        ""pluralRule-count-one"": ""n = 1 @integer 1 @decimal 1.0, 1.00, 1.000, 1.0000"",";
  "        ""pluralRule-count-other"": "" @integer 0, 2~16, 100, 1000, 10000, 100000, 1000000, … @decimal 0.0~0.9, 1.1~1.6, 10.0, 100.0, 1000.0, 10000.0, 100000.0, 1000000.0, …""";
  "      },";
  "      ""bs"": {";
  "        ""pluralRule-count-one"": ""v = 0 and i % 10 = 1 and i % 100 != 11 or f % 10 = 1 and f % 100 != 11 @integer 1, 21, 31, 41, 51, 61, 71, 81, 101, 1001, … @decimal 0.1, 1.1, 2.1, 3.1, 4.1, 5.1, 6.1, 7.1, 10.1, 100.1, 1000.1, …"",";
  "        ""pluralRule-count-few"": ""v = 0 and i % 10 = 2..4 and i % 100 != 12..14 or f % 10 = 2..4 and f % 100 != 12..14 @integer 2~4, 22~24, 32~34, 42~44, 52~54, 62, 102, 1002, … @decimal 0.2~0.4, 1.2~1.4, 2.2~2.4, 3.2~3.4, 4.2~4.4, 5.2, 10.2, 100.2, 1000.2, …"",";
  "        ""pluralRule-count-other"": "" @integer 0, 5~19, 100, 1000, 10000, 100000, 1000000, … @decimal 0.0, 0.5~1.0, 1.5~2.0, 2.5~2.7, 10.0, 100.0, 1000.0, 10000.0, 100000.0, 1000000.0, …""";
  "      },";
  "      ""ca"": {";
  "        ""pluralRule-count-one"": ""i = 1 and v = 0 @integer 1"",";
  "        ""pluralRule-count-other"": "" @integer 0, 2~16, 100, 1000, 10000, 100000, 1000000, … @decimal 0.0~1.5, 10.0, 100.0, 1000.0, 10000.0, 100000.0, 1000000.0, …""";
  "      },";
  "      ""ce"": {";
  "        ""pluralRule-count-one"": ""n = 1 @integer 1 @decimal 1.0, 1.00, 1.000, 1.0000"",";
  "        ""pluralRule-count-other"": "" @integer 0, 2~16, 100, 1000, 10000, 100000, 1000000, … @decimal 0.0~0.9, 1.1~1.6, 10.0, 100.0, 1000.0, 10000.0, 100000.0, 1000000.0, …""";
  "      },";
  "      ""ceb"": {";
  "        ""pluralRule-count-one"": ""v = 0 and i = 1,2,3 or v = 0 and i % 10 != 4,6,9 or v != 0 and f % 10 != 4,6,9 @integer 0~3, 5, 7, 8, 10~13, 15, 17, 18, 20, 21, 100, 1000, 10000, 100000, 1000000, … @decimal 0.0~0.3, 0.5, 0.7, 0.8, 1.0~1.3, 1.5, 1.7, 1.8, 2.0, 2.1, 10.0, 100.0, 1000.0, 10000.0, 100000.0, 1000000.0, …"",";
  "        ""pluralRule-count-other"": "" @integer 4, 6, 9, 14, 16, 19, 24, 26, 104, 1004, … @decimal 0.4, 0.6, 0.9, 1.4, 1.6, 1.9, 2.4, 2.6, 10.4, 100.4, 1000.4, …""";
  "      },";
  "      ""cgg"": {";
  "        ""pluralRule-count-one"": ""n = 1 @integer 1 @decimal 1.0, 1.00, 1.000, 1.0000"",";
  "        ""pluralRule-count-other"": "" @integer 0, 2~16, 100, 1000, 10000, 100000, 1000000, … @decimal 0.0~0.9, 1.1~1.6, 10.0, 100.0, 1000.0, 10000.0, 100000.0, 1000000.0, …""";
  "      },";
  "      ""chr"": {";
  "        ""pluralRule-count-one"": ""n = 1 @integer 1 @decimal 1.0, 1.00, 1.000, 1.0000"",";
  "        ""pluralRule-count-other"": "" @integer 0, 2~16, 100, 1000, 10000, 100000, 1000000, … @decimal 0.0~0.9, 1.1~1.6, 10.0, 100.0, 1000.0, 10000.0, 100000.0, 1000000.0, …""";
  "      },";
  "      ""ckb"": {";
  "        ""pluralRule-count-one"": ""n = 1 @integer 1 @decimal 1.0, 1.00, 1.000, 1.0000"",";
  "        ""pluralRule-count-other"": "" @integer 0, 2~16, 100, 1000, 10000, 100000, 1000000, … @decimal 0.0~0.9, 1.1~1.6, 10.0, 100.0, 1000.0, 10000.0, 100000.0, 1000000.0, …""";
  "      },";
  "      ""cs"": {";
  "        ""pluralRule-count-one"": ""i = 1 and v = 0 @integer 1"",";
  "        ""pluralRule-count-few"": ""i = 2..4 and v = 0 @integer 2~4"",";
  "        ""pluralRule-count-many"": ""v != 0   @decimal 0.0~1.5, 10.0, 100.0, 1000.0, 10000.0, 100000.0, 1000000.0, …"",";
  "        ""pluralRule-count-other"": "" @integer 0, 5~19, 100, 1000, 10000, 100000, 1000000, …""";
  "      },";
  "      ""cy"": {";
  "        ""pluralRule-count-zero"": ""n = 0 @integer 0 @decimal 0.0, 0.00, 0.000, 0.0000"",";
  "        ""pluralRule-count-one"": ""n = 1 @integer 1 @decimal 1.0, 1.00, 1.000, 1.0000"",";
  "        ""pluralRule-count-two"": ""n = 2 @integer 2 @decimal 2.0, 2.00, 2.000, 2.0000"",";
  "        ""pluralRule-count-few"": ""n = 3 @integer 3 @decimal 3.0, 3.00, 3.000, 3.0000"",";
  "        ""pluralRule-count-many"": ""n = 6 @integer 6 @decimal 6.0, 6.00, 6.000, 6.0000"",";
  "        ""pluralRule-count-other"": "" @integer 4, 5, 7~20, 100, 1000, 10000, 100000, 1000000, … @decimal 0.1~0.9, 1.1~1.7, 10.0, 100.0, 1000.0, 10000.0, 100000.0, 1000000.0, …""";
  "      },";
  "      ""da"": {";
  "        ""pluralRule-count-one"": ""n = 1 or t != 0 and i = 0,1 @integer 1 @decimal 0.1~1.6"",";
  "        ""pluralRule-count-other"": "" @integer 0, 2~16, 100, 1000, 10000, 100000, 1000000, … @decimal 0.0, 2.0~3.4, 10.0, 100.0, 1000.0, 10000.0, 100000.0, 1000000.0, …""";
  "      },";
  "      ""de"": {";
  "        ""pluralRule-count-one"": ""i = 1 and v = 0 @integer 1"",";
  "        ""pluralRule-count-other"": "" @integer 0, 2~16, 100, 1000, 10000, 100000, 1000000, … @decimal 0.0~1.5, 10.0, 100.0, 1000.0, 10000.0, 100000.0, 1000000.0, …""";
  "      },";
  "      ""dsb"": {";
  "        ""pluralRule-count-one"": ""v = 0 and i % 100 = 1 or f % 100 = 1 @integer 1, 101, 201, 301, 401, 501, 601, 701, 1001, … @decimal 0.1, 1.1, 2.1, 3.1, 4.1, 5.1, 6.1, 7.1, 10.1, 100.1, 1000.1, …"",";
  "        ""pluralRule-count-two"": ""v = 0 and i % 100 = 2 or f % 100 = 2 @integer 2, 102, 202, 302, 402, 502, 602, 702, 1002, … @decimal 0.2, 1.2, 2.2, 3.2, 4.2, 5.2, 6.2, 7.2, 10.2, 100.2, 1000.2, …"",";
  "        ""pluralRule-count-few"": ""v = 0 and i % 100 = 3..4 or f % 100 = 3..4 @integer 3, 4, 103, 104, 203, 204, 303, 304, 403, 404, 503, 504, 603, 604, 703, 704, 1003, … @decimal 0.3, 0.4, 1.3, 1.4, 2.3, 2.4, 3.3, 3.4, 4.3, 4.4, 5.3, 5.4, 6.3, 6.4, 7.3, 7.4, 10.3, 100.3, 1000.3, …"",";
  "        ""pluralRule-count-other"": "" @integer 0, 5~19, 100, 1000, 10000, 100000, 1000000, … @decimal 0.0, 0.5~1.0, 1.5~2.0, 2.5~2.7, 10.0, 100.0, 1000.0, 10000.0, 100000.0, 1000000.0, …""";
  "      },";
  "      ""dv"": {";
  "        ""pluralRule-count-one"": ""n = 1 @integer 1 @decimal 1.0, 1.00, 1.000, 1.0000"",";
  "        ""pluralRule-count-other"": "" @integer 0, 2~16, 100, 1000, 10000, 100000, 1000000, … @decimal 0.0~0.9, 1.1~1.6, 10.0, 100.0, 1000.0, 10000.0, 100000.0, 1000000.0, …""";
  "      },";
  "      ""dz"": {";
  "        ""pluralRule-count-other"": "" @integer 0~15, 100, 1000, 10000, 100000, 1000000, … @decimal 0.0~1.5, 10.0, 100.0, 1000.0, 10000.0, 100000.0, 1000000.0, …""";
  "      },";
  "      ""ee"": {";
  "        ""pluralRule-count-one"": ""n = 1 @integer 1 @decimal 1.0, 1.00, 1.000, 1.0000"",";
  "        ""pluralRule-count-other"": "" @integer 0, 2~16, 100, 1000, 10000, 100000, 1000000, … @decimal 0.0~0.9, 1.1~1.6, 10.0, 100.0, 1000.0, 10000.0, 100000.0, 1000000.0, …""";
  "      },";
  "      ""el"": {";
  "        ""pluralRule-count-one"": ""n = 1 @integer 1 @decimal 1.0, 1.00, 1.000, 1.0000"",";
  "        ""pluralRule-count-other"": "" @integer 0, 2~16, 100, 1000, 10000, 100000, 1000000, … @decimal 0.0~0.9, 1.1~1.6, 10.0, 100.0, 1000.0, 10000.0, 100000.0, 1000000.0, …""";
  "      },";
  "      ""en"": {";
  "        ""pluralRule-count-one"": ""i = 1 and v = 0 @integer 1"",";
  "        ""pluralRule-count-other"": "" @integer 0, 2~16, 100, 1000, 10000, 100000, 1000000, … @decimal 0.0~1.5, 10.0, 100.0, 1000.0, 10000.0, 100000.0, 1000000.0, …""";
  "      },";
  "      ""eo"": {";
  "        ""pluralRule-count-one"": ""n = 1 @integer 1 @decimal 1.0, 1.00, 1.000, 1.0000"",";
  "        ""pluralRule-count-other"": "" @integer 0, 2~16, 100, 1000, 10000, 100000, 1000000, … @decimal 0.0~0.9, 1.1~1.6, 10.0, 100.0, 1000.0, 10000.0, 100000.0, 1000000.0, …""";
  "      },";
  "      ""es"": {";
  "        ""pluralRule-count-one"": ""n = 1 @integer 1 @decimal 1.0, 1.00, 1.000, 1.0000"",";
  "        ""pluralRule-count-other"": "" @integer 0, 2~16, 100, 1000, 10000, 100000, 1000000, … @decimal 0.0~0.9, 1.1~1.6, 10.0, 100.0, 1000.0, 10000.0, 100000.0, 1000000.0, …""";
  "      },";
  "      ""et"": {";
  "        ""pluralRule-count-one"": ""i = 1 and v = 0 @integer 1"",";
  "        ""pluralRule-count-other"": "" @integer 0, 2~16, 100, 1000, 10000, 100000, 1000000, … @decimal 0.0~1.5, 10.0, 100.0, 1000.0, 10000.0, 100000.0, 1000000.0, …""";
  "      },";
  "      ""eu"": {";
  "        ""pluralRule-count-one"": ""n = 1 @integer 1 @decimal 1.0, 1.00, 1.000, 1.0000"",";
  "        ""pluralRule-count-other"": "" @integer 0, 2~16, 100, 1000, 10000, 100000, 1000000, … @decimal 0.0~0.9, 1.1~1.6, 10.0, 100.0, 1000.0, 10000.0, 100000.0, 1000000.0, …""";
  "      },";
  "      ""fa"": {";
  "        ""pluralRule-count-one"": ""i = 0 or n = 1 @integer 0, 1 @decimal 0.0~1.0, 0.00~0.04"",";
  "        ""pluralRule-count-other"": "" @integer 2~17, 100, 1000, 10000, 100000, 1000000, … @decimal 1.1~2.6, 10.0, 100.0, 1000.0, 10000.0, 100000.0, 1000000.0, …""";
  "      },";
  "      ""ff"": {";
  "        ""pluralRule-count-one"": ""i = 0,1 @integer 0, 1 @decimal 0.0~1.5"",";
  "        ""pluralRule-count-other"": "" @integer 2~17, 100, 1000, 10000, 100000, 1000000, … @decimal 2.0~3.5, 10.0, 100.0, 1000.0, 10000.0, 100000.0, 1000000.0, …""";
  "      },";
  "      ""fi"": {";
  "        ""pluralRule-count-one"": ""i = 1 and v = 0 @integer 1"",";
  "        ""pluralRule-count-other"": "" @integer 0, 2~16, 100, 1000, 10000, 100000, 1000000, … @decimal 0.0~1.5, 10.0, 100.0, 1000.0, 10000.0, 100000.0, 1000000.0, …""";
  "      },";
  "      ""fil"": {";
  "        ""pluralRule-count-one"": ""v = 0 and i = 1,2,3 or v = 0 and i % 10 != 4,6,9 or v != 0 and f % 10 != 4,6,9 @integer 0~3, 5, 7, 8, 10~13, 15, 17, 18, 20, 21, 100, 1000, 10000, 100000, 1000000, … @decimal 0.0~0.3, 0.5, 0.7, 0.8, 1.0~1.3, 1.5, 1.7, 1.8, 2.0, 2.1, 10.0, 100.0, 1000.0, 10000.0, 100000.0, 1000000.0, …"",";
  "        ""pluralRule-count-other"": "" @integer 4, 6, 9, 14, 16, 19, 24, 26, 104, 1004, … @decimal 0.4, 0.6, 0.9, 1.4, 1.6, 1.9, 2.4, 2.6, 10.4, 100.4, 1000.4, …""";
  "      },";
  "      ""fo"": {";
  "        ""pluralRule-count-one"": ""n = 1 @integer 1 @decimal 1.0, 1.00, 1.000, 1.0000"",";
  "        ""pluralRule-count-other"": "" @integer 0, 2~16, 100, 1000, 10000, 100000, 1000000, … @decimal 0.0~0.9, 1.1~1.6, 10.0, 100.0, 1000.0, 10000.0, 100000.0, 1000000.0, …""";
  "      },";
  "      ""fr"": {";
  "        ""pluralRule-count-one"": ""i = 0,1 @integer 0, 1 @decimal 0.0~1.5"",";
  "        ""pluralRule-count-other"": "" @integer 2~17, 100, 1000, 10000, 100000, 1000000, … @decimal 2.0~3.5, 10.0, 100.0, 1000.0, 10000.0, 100000.0, 1000000.0, …""";
  "      },";
  "      ""fur"": {";
  "        ""pluralRule-count-one"": ""n = 1 @integer 1 @decimal 1.0, 1.00, 1.000, 1.0000"",";
  "        ""pluralRule-count-other"": "" @integer 0, 2~16, 100, 1000, 10000, 100000, 1000000, … @decimal 0.0~0.9, 1.1~1.6, 10.0, 100.0, 1000.0, 10000.0, 100000.0, 1000000.0, …""";
  "      },";
  "      ""fy"": {";
  "        ""pluralRule-count-one"": ""i = 1 and v = 0 @integer 1"",";
  "        ""pluralRule-count-other"": "" @integer 0, 2~16, 100, 1000, 10000, 100000, 1000000, … @decimal 0.0~1.5, 10.0, 100.0, 1000.0, 10000.0, 100000.0, 1000000.0, …""";
  "      },";
  "      ""ga"": {";
  "        ""pluralRule-count-one"": ""n = 1 @integer 1 @decimal 1.0, 1.00, 1.000, 1.0000"",";
  "        ""pluralRule-count-two"": ""n = 2 @integer 2 @decimal 2.0, 2.00, 2.000, 2.0000"",";
  "        ""pluralRule-count-few"": ""n = 3..6 @integer 3~6 @decimal 3.0, 4.0, 5.0, 6.0, 3.00, 4.00, 5.00, 6.00, 3.000, 4.000, 5.000, 6.000, 3.0000, 4.0000, 5.0000, 6.0000"",";
  "        ""pluralRule-count-many"": ""n = 7..10 @integer 7~10 @decimal 7.0, 8.0, 9.0, 10.0, 7.00, 8.00, 9.00, 10.00, 7.000, 8.000, 9.000, 10.000, 7.0000, 8.0000, 9.0000, 10.0000"",";
  "        ""pluralRule-count-other"": "" @integer 0, 11~25, 100, 1000, 10000, 100000, 1000000, … @decimal 0.0~0.9, 1.1~1.6, 10.1, 100.0, 1000.0, 10000.0, 100000.0, 1000000.0, …""";
  "      },";
  "      ""gd"": {";
  "        ""pluralRule-count-one"": ""n = 1,11 @integer 1, 11 @decimal 1.0, 11.0, 1.00, 11.00, 1.000, 11.000, 1.0000"",";
  "        ""pluralRule-count-two"": ""n = 2,12 @integer 2, 12 @decimal 2.0, 12.0, 2.00, 12.00, 2.000, 12.000, 2.0000"",";
  "        ""pluralRule-count-few"": ""n = 3..10,13..19 @integer 3~10, 13~19 @decimal 3.0, 4.0, 5.0, 6.0, 7.0, 8.0, 9.0, 10.0, 13.0, 14.0, 15.0, 16.0, 17.0, 18.0, 19.0, 3.00"",";
  "        ""pluralRule-count-other"": "" @integer 0, 20~34, 100, 1000, 10000, 100000, 1000000, … @decimal 0.0~0.9, 1.1~1.6, 10.1, 100.0, 1000.0, 10000.0, 100000.0, 1000000.0, …""";
  "      },";
  "      ""gl"": {";
  "        ""pluralRule-count-one"": ""i = 1 and v = 0 @integer 1"",";
  "        ""pluralRule-count-other"": "" @integer 0, 2~16, 100, 1000, 10000, 100000, 1000000, … @decimal 0.0~1.5, 10.0, 100.0, 1000.0, 10000.0, 100000.0, 1000000.0, …""";
  "      },";
  "      ""gsw"": {";
  "        ""pluralRule-count-one"": ""n = 1 @integer 1 @decimal 1.0, 1.00, 1.000, 1.0000"",";
  "        ""pluralRule-count-other"": "" @integer 0, 2~16, 100, 1000, 10000, 100000, 1000000, … @decimal 0.0~0.9, 1.1~1.6, 10.0, 100.0, 1000.0, 10000.0, 100000.0, 1000000.0, …""";
  "      },";
  "      ""gu"": {";
  "        ""pluralRule-count-one"": ""i = 0 or n = 1 @integer 0, 1 @decimal 0.0~1.0, 0.00~0.04"",";
  "        ""pluralRule-count-other"": "" @integer 2~17, 100, 1000, 10000, 100000, 1000000, … @decimal 1.1~2.6, 10.0, 100.0, 1000.0, 10000.0, 100000.0, 1000000.0, …""";
  "      },";
  "      ""guw"": {";
  "        ""pluralRule-count-one"": ""n = 0..1 @integer 0, 1 @decimal 0.0, 1.0, 0.00, 1.00, 0.000, 1.000, 0.0000, 1.0000"",";
  "        ""pluralRule-count-other"": "" @integer 2~17, 100, 1000, 10000, 100000, 1000000, … @decimal 0.1~0.9, 1.1~1.7, 10.0, 100.0, 1000.0, 10000.0, 100000.0, 1000000.0, …""";
  "      },";
  "      ""gv"": {";
  "        ""pluralRule-count-one"": ""v = 0 and i % 10 = 1 @integer 1, 11, 21, 31, 41, 51, 61, 71, 101, 1001, …"",";
  "        ""pluralRule-count-two"": ""v = 0 and i % 10 = 2 @integer 2, 12, 22, 32, 42, 52, 62, 72, 102, 1002, …"",";
  "        ""pluralRule-count-few"": ""v = 0 and i % 100 = 0,20,40,60,80 @integer 0, 20, 40, 60, 80, 100, 120, 140, 1000, 10000, 100000, 1000000, …"",";
  "        ""pluralRule-count-many"": ""v != 0   @decimal 0.0~1.5, 10.0, 100.0, 1000.0, 10000.0, 100000.0, 1000000.0, …"",";
  "        ""pluralRule-count-other"": "" @integer 3~10, 13~19, 23, 103, 1003, …""";
  "      },";
  "      ""ha"": {";
  "        ""pluralRule-count-one"": ""n = 1 @integer 1 @decimal 1.0, 1.00, 1.000, 1.0000"",";
  "        ""pluralRule-count-other"": "" @integer 0, 2~16, 100, 1000, 10000, 100000, 1000000, … @decimal 0.0~0.9, 1.1~1.6, 10.0, 100.0, 1000.0, 10000.0, 100000.0, 1000000.0, …""";
  "      },";
  "      ""haw"": {";
  "        ""pluralRule-count-one"": ""n = 1 @integer 1 @decimal 1.0, 1.00, 1.000, 1.0000"",";
  "        ""pluralRule-count-other"": "" @integer 0, 2~16, 100, 1000, 10000, 100000, 1000000, … @decimal 0.0~0.9, 1.1~1.6, 10.0, 100.0, 1000.0, 10000.0, 100000.0, 1000000.0, …""";
  "      },";
  "      ""he"": {";
  "        ""pluralRule-count-one"": ""i = 1 and v = 0 @integer 1"",";
  "        ""pluralRule-count-two"": ""i = 2 and v = 0 @integer 2"",";
  "        ""pluralRule-count-many"": ""v = 0 and n != 0..10 and n % 10 = 0 @integer 20, 30, 40, 50, 60, 70, 80, 90, 100, 1000, 10000, 100000, 1000000, …"",";
  "        ""pluralRule-count-other"": "" @integer 0, 3~17, 101, 1001, … @decimal 0.0~1.5, 10.0, 100.0, 1000.0, 10000.0, 100000.0, 1000000.0, …""";
  "      },";
  "      ""hi"": {";
  "        ""pluralRule-count-one"": ""i = 0 or n = 1 @integer 0, 1 @decimal 0.0~1.0, 0.00~0.04"",";
  "        ""pluralRule-count-other"": "" @integer 2~17, 100, 1000, 10000, 100000, 1000000, … @decimal 1.1~2.6, 10.0, 100.0, 1000.0, 10000.0, 100000.0, 1000000.0, …""";
  "      },";
  "      ""hr"": {";
  "        ""pluralRule-count-one"": ""v = 0 and i % 10 = 1 and i % 100 != 11 or f % 10 = 1 and f % 100 != 11 @integer 1, 21, 31, 41, 51, 61, 71, 81, 101, 1001, … @decimal 0.1, 1.1, 2.1, 3.1, 4.1, 5.1, 6.1, 7.1, 10.1, 100.1, 1000.1, …"",";
  "        ""pluralRule-count-few"": ""v = 0 and i % 10 = 2..4 and i % 100 != 12..14 or f % 10 = 2..4 and f % 100 != 12..14 @integer 2~4, 22~24, 32~34, 42~44, 52~54, 62, 102, 1002, … @decimal 0.2~0.4, 1.2~1.4, 2.2~2.4, 3.2~3.4, 4.2~4.4, 5.2, 10.2, 100.2, 1000.2, …"",";
  "        ""pluralRule-count-other"": "" @integer 0, 5~19, 100, 1000, 10000, 100000, 1000000, … @decimal 0.0, 0.5~1.0, 1.5~2.0, 2.5~2.7, 10.0, 100.0, 1000.0, 10000.0, 100000.0, 1000000.0, …""";
  "      },";
  "      ""hsb"": {";
  "        ""pluralRule-count-one"": ""v = 0 and i % 100 = 1 or f % 100 = 1 @integer 1, 101, 201, 301, 401, 501, 601, 701, 1001, … @decimal 0.1, 1.1, 2.1, 3.1, 4.1, 5.1, 6.1, 7.1, 10.1, 100.1, 1000.1, …"",";
  "        ""pluralRule-count-two"": ""v = 0 and i % 100 = 2 or f % 100 = 2 @integer 2, 102, 202, 302, 402, 502, 602, 702, 1002, … @decimal 0.2, 1.2, 2.2, 3.2, 4.2, 5.2, 6.2, 7.2, 10.2, 100.2, 1000.2, …"",";
  "        ""pluralRule-count-few"": ""v = 0 and i % 100 = 3..4 or f % 100 = 3..4 @integer 3, 4, 103, 104, 203, 204, 303, 304, 403, 404, 503, 504, 603, 604, 703, 704, 1003, … @decimal 0.3, 0.4, 1.3, 1.4, 2.3, 2.4, 3.3, 3.4, 4.3, 4.4, 5.3, 5.4, 6.3, 6.4, 7.3, 7.4, 10.3, 100.3, 1000.3, …"",";
  "        ""pluralRule-count-other"": "" @integer 0, 5~19, 100, 1000, 10000, 100000, 1000000, … @decimal 0.0, 0.5~1.0, 1.5~2.0, 2.5~2.7, 10.0, 100.0, 1000.0, 10000.0, 100000.0, 1000000.0, …""";
  "      },";
  "      ""hu"": {";
  "        ""pluralRule-count-one"": ""n = 1 @integer 1 @decimal 1.0, 1.00, 1.000, 1.0000"",";
  "        ""pluralRule-count-other"": "" @integer 0, 2~16, 100, 1000, 10000, 100000, 1000000, … @decimal 0.0~0.9, 1.1~1.6, 10.0, 100.0, 1000.0, 10000.0, 100000.0, 1000000.0, …""";
  "      },";
  "      ""hy"": {";
  "        ""pluralRule-count-one"": ""i = 0,1 @integer 0, 1 @decimal 0.0~1.5"",";
  "        ""pluralRule-count-other"": "" @integer 2~17, 100, 1000, 10000, 100000, 1000000, … @decimal 2.0~3.5, 10.0, 100.0, 1000.0, 10000.0, 100000.0, 1000000.0, …""";
  "      },";
  "      ""ia"": {";
  "        ""pluralRule-count-one"": ""i = 1 and v = 0 @integer 1"",";
  "        ""pluralRule-count-other"": "" @integer 0, 2~16, 100, 1000, 10000, 100000, 1000000, … @decimal 0.0~1.5, 10.0, 100.0, 1000.0, 10000.0, 100000.0, 1000000.0, …""";
  "      },";
  "      ""id"": {";
  "        ""pluralRule-count-other"": "" @integer 0~15, 100, 1000, 10000, 100000, 1000000, … @decimal 0.0~1.5, 10.0, 100.0, 1000.0, 10000.0, 100000.0, 1000000.0, …""";
  "      },";
  "      ""ig"": {";
  "        ""pluralRule-count-other"": "" @integer 0~15, 100, 1000, 10000, 100000, 1000000, … @decimal 0.0~1.5, 10.0, 100.0, 1000.0, 10000.0, 100000.0, 1000000.0, …""";
  "      },";
  "      ""ii"": {";
  "        ""pluralRule-count-other"": "" @integer 0~15, 100, 1000, 10000, 100000, 1000000, … @decimal 0.0~1.5, 10.0, 100.0, 1000.0, 10000.0, 100000.0, 1000000.0, …""";
  "      },";
  "      ""in"": {";
  "        ""pluralRule-count-other"": "" @integer 0~15, 100, 1000, 10000, 100000, 1000000, … @decimal 0.0~1.5, 10.0, 100.0, 1000.0, 10000.0, 100000.0, 1000000.0, …""";
  "      },";
  "      ""io"": {";
  "        ""pluralRule-count-one"": ""i = 1 and v = 0 @integer 1"",";
  "        ""pluralRule-count-other"": "" @integer 0, 2~16, 100, 1000, 10000, 100000, 1000000, … @decimal 0.0~1.5, 10.0, 100.0, 1000.0, 10000.0, 100000.0, 1000000.0, …""";
  "      },";
  "      ""is"": {";
  "        ""pluralRule-count-one"": ""t = 0 and i % 10 = 1 and i % 100 != 11 or t != 0 @integer 1, 21, 31, 41, 51, 61, 71, 81, 101, 1001, … @decimal 0.1~1.6, 10.1, 100.1, 1000.1, …"",";
  "        ""pluralRule-count-other"": "" @integer 0, 2~16, 100, 1000, 10000, 100000, 1000000, … @decimal 0.0, 2.0, 3.0, 4.0, 5.0, 6.0, 7.0, 8.0, 10.0, 100.0, 1000.0, 10000.0, 100000.0, 1000000.0, …""";
  "      },";
  "      ""it"": {";
  "        ""pluralRule-count-one"": ""i = 1 and v = 0 @integer 1"",";
  "        ""pluralRule-count-other"": "" @integer 0, 2~16, 100, 1000, 10000, 100000, 1000000, … @decimal 0.0~1.5, 10.0, 100.0, 1000.0, 10000.0, 100000.0, 1000000.0, …""";
  "      },";
  "      ""iu"": {";
  "        ""pluralRule-count-one"": ""n = 1 @integer 1 @decimal 1.0, 1.00, 1.000, 1.0000"",";
  "        ""pluralRule-count-two"": ""n = 2 @integer 2 @decimal 2.0, 2.00, 2.000, 2.0000"",";
  "        ""pluralRule-count-other"": "" @integer 0, 3~17, 100, 1000, 10000, 100000, 1000000, … @decimal 0.0~0.9, 1.1~1.6, 10.0, 100.0, 1000.0, 10000.0, 100000.0, 1000000.0, …""";
  "      },";
  "      ""iw"": {";
  "        ""pluralRule-count-one"": ""i = 1 and v = 0 @integer 1"",";
  "        ""pluralRule-count-two"": ""i = 2 and v = 0 @integer 2"",";
  "        ""pluralRule-count-many"": ""v = 0 and n != 0..10 and n % 10 = 0 @integer 20, 30, 40, 50, 60, 70, 80, 90, 100, 1000, 10000, 100000, 1000000, …"",";
  "        ""pluralRule-count-other"": "" @integer 0, 3~17, 101, 1001, … @decimal 0.0~1.5, 10.0, 100.0, 1000.0, 10000.0, 100000.0, 1000000.0, …""";
  "      },";
  "      ""ja"": {";
  "        ""pluralRule-count-other"": "" @integer 0~15, 100, 1000, 10000, 100000, 1000000, … @decimal 0.0~1.5, 10.0, 100.0, 1000.0, 10000.0, 100000.0, 1000000.0, …""";
  "      },";
  "      ""jbo"": {";
  "        ""pluralRule-count-other"": "" @integer 0~15, 100, 1000, 10000, 100000, 1000000, … @decimal 0.0~1.5, 10.0, 100.0, 1000.0, 10000.0, 100000.0, 1000000.0, …""";
  "      },";
  "      ""jgo"": {";
  "        ""pluralRule-count-one"": ""n = 1 @integer 1 @decimal 1.0, 1.00, 1.000, 1.0000"",";
  "        ""pluralRule-count-other"": "" @integer 0, 2~16, 100, 1000, 10000, 100000, 1000000, … @decimal 0.0~0.9, 1.1~1.6, 10.0, 100.0, 1000.0, 10000.0, 100000.0, 1000000.0, …""";
  "      },";
  "      ""ji"": {";
  "        ""pluralRule-count-one"": ""i = 1 and v = 0 @integer 1"",";
  "        ""pluralRule-count-other"": "" @integer 0, 2~16, 100, 1000, 10000, 100000, 1000000, … @decimal 0.0~1.5, 10.0, 100.0, 1000.0, 10000.0, 100000.0, 1000000.0, …""";
  "      },";
  "      ""jmc"": {";
  "        ""pluralRule-count-one"": ""n = 1 @integer 1 @decimal 1.0, 1.00, 1.000, 1.0000"",";
  "        ""pluralRule-count-other"": "" @integer 0, 2~16, 100, 1000, 10000, 100000, 1000000, … @decimal 0.0~0.9, 1.1~1.6, 10.0, 100.0, 1000.0, 10000.0, 100000.0, 1000000.0, …""";
  "      },";
  "      ""jv"": {";
  "        ""pluralRule-count-other"": "" @integer 0~15, 100, 1000, 10000, 100000, 1000000, … @decimal 0.0~1.5, 10.0, 100.0, 1000.0, 10000.0, 100000.0, 1000000.0, …""";
  "      },";
  "      ""jw"": {";
  "        ""pluralRule-count-other"": "" @integer 0~15, 100, 1000, 10000, 100000, 1000000, … @decimal 0.0~1.5, 10.0, 100.0, 1000.0, 10000.0, 100000.0, 1000000.0, …""";
  "      },";
  "      ""ka"": {";
  "        ""pluralRule-count-one"": ""n = 1 @integer 1 @decimal 1.0, 1.00, 1.000, 1.0000"",";
  "        ""pluralRule-count-other"": "" @integer 0, 2~16, 100, 1000, 10000, 100000, 1000000, … @decimal 0.0~0.9, 1.1~1.6, 10.0, 100.0, 1000.0, 10000.0, 100000.0, 1000000.0, …""";
  "      },";
  "      ""kab"": {";
  "        ""pluralRule-count-one"": ""i = 0,1 @integer 0, 1 @decimal 0.0~1.5"",";
  "        ""pluralRule-count-other"": "" @integer 2~17, 100, 1000, 10000, 100000, 1000000, … @decimal 2.0~3.5, 10.0, 100.0, 1000.0, 10000.0, 100000.0, 1000000.0, …""";
  "      },";
  "      ""kaj"": {";
  "        ""pluralRule-count-one"": ""n = 1 @integer 1 @decimal 1.0, 1.00, 1.000, 1.0000"",";
  "        ""pluralRule-count-other"": "" @integer 0, 2~16, 100, 1000, 10000, 100000, 1000000, … @decimal 0.0~0.9, 1.1~1.6, 10.0, 100.0, 1000.0, 10000.0, 100000.0, 1000000.0, …""";
  "      },";
  "      ""kcg"": {";
  "        ""pluralRule-count-one"": ""n = 1 @integer 1 @decimal 1.0, 1.00, 1.000, 1.0000"",";
  "        ""pluralRule-count-other"": "" @integer 0, 2~16, 100, 1000, 10000, 100000, 1000000, … @decimal 0.0~0.9, 1.1~1.6, 10.0, 100.0, 1000.0, 10000.0, 100000.0, 1000000.0, …""";
  "      },";
  "      ""kde"": {";
  "        ""pluralRule-count-other"": "" @integer 0~15, 100, 1000, 10000, 100000, 1000000, … @decimal 0.0~1.5, 10.0, 100.0, 1000.0, 10000.0, 100000.0, 1000000.0, …""";
  "      },";
  "      ""kea"": {";
  "        ""pluralRule-count-other"": "" @integer 0~15, 100, 1000, 10000, 100000, 1000000, … @decimal 0.0~1.5, 10.0, 100.0, 1000.0, 10000.0, 100000.0, 1000000.0, …""";
  "      },";
  "      ""kk"": {";
  "        ""pluralRule-count-one"": ""n = 1 @integer 1 @decimal 1.0, 1.00, 1.000, 1.0000"",";
  "        ""pluralRule-count-other"": "" @integer 0, 2~16, 100, 1000, 10000, 100000, 1000000, … @decimal 0.0~0.9, 1.1~1.6, 10.0, 100.0, 1000.0, 10000.0, 100000.0, 1000000.0, …""";
  "      },";
  "      ""kkj"": {";
  "        ""pluralRule-count-one"": ""n = 1 @integer 1 @decimal 1.0, 1.00, 1.000, 1.0000"",";
  "        ""pluralRule-count-other"": "" @integer 0, 2~16, 100, 1000, 10000, 100000, 1000000, … @decimal 0.0~0.9, 1.1~1.6, 10.0, 100.0, 1000.0, 10000.0, 100000.0, 1000000.0, …""";
  "      },";
  "      ""kl"": {";
  "        ""pluralRule-count-one"": ""n = 1 @integer 1 @decimal 1.0, 1.00, 1.000, 1.0000"",";
  "        ""pluralRule-count-other"": "" @integer 0, 2~16, 100, 1000, 10000, 100000, 1000000, … @decimal 0.0~0.9, 1.1~1.6, 10.0, 100.0, 1000.0, 10000.0, 100000.0, 1000000.0, …""";
  "      },";
  "      ""km"": {";
  "        ""pluralRule-count-other"": "" @integer 0~15, 100, 1000, 10000, 100000, 1000000, … @decimal 0.0~1.5, 10.0, 100.0, 1000.0, 10000.0, 100000.0, 1000000.0, …""";
  "      },";
  "      ""kn"": {";
  "        ""pluralRule-count-one"": ""i = 0 or n = 1 @integer 0, 1 @decimal 0.0~1.0, 0.00~0.04"",";
  "        ""pluralRule-count-other"": "" @integer 2~17, 100, 1000, 10000, 100000, 1000000, … @decimal 1.1~2.6, 10.0, 100.0, 1000.0, 10000.0, 100000.0, 1000000.0, …""";
  "      },";
  "      ""ko"": {";
  "        ""pluralRule-count-other"": "" @integer 0~15, 100, 1000, 10000, 100000, 1000000, … @decimal 0.0~1.5, 10.0, 100.0, 1000.0, 10000.0, 100000.0, 1000000.0, …""";
  "      },";
  "      ""ks"": {";
  "        ""pluralRule-count-one"": ""n = 1 @integer 1 @decimal 1.0, 1.00, 1.000, 1.0000"",";
  "        ""pluralRule-count-other"": "" @integer 0, 2~16, 100, 1000, 10000, 100000, 1000000, … @decimal 0.0~0.9, 1.1~1.6, 10.0, 100.0, 1000.0, 10000.0, 100000.0, 1000000.0, …""";
  "      },";
  "      ""ksb"": {";
  "        ""pluralRule-count-one"": ""n = 1 @integer 1 @decimal 1.0, 1.00, 1.000, 1.0000"",";
  "        ""pluralRule-count-other"": "" @integer 0, 2~16, 100, 1000, 10000, 100000, 1000000, … @decimal 0.0~0.9, 1.1~1.6, 10.0, 100.0, 1000.0, 10000.0, 100000.0, 1000000.0, …""";
  "      },";
  "      ""ksh"": {";
  "        ""pluralRule-count-zero"": ""n = 0 @integer 0 @decimal 0.0, 0.00, 0.000, 0.0000"",";
  "        ""pluralRule-count-one"": ""n = 1 @integer 1 @decimal 1.0, 1.00, 1.000, 1.0000"",";
  "        ""pluralRule-count-other"": "" @integer 2~17, 100, 1000, 10000, 100000, 1000000, … @decimal 0.1~0.9, 1.1~1.7, 10.0, 100.0, 1000.0, 10000.0, 100000.0, 1000000.0, …""";
  "      },";
  "      ""ku"": {";
  "        ""pluralRule-count-one"": ""n = 1 @integer 1 @decimal 1.0, 1.00, 1.000, 1.0000"",";
  "        ""pluralRule-count-other"": "" @integer 0, 2~16, 100, 1000, 10000, 100000, 1000000, … @decimal 0.0~0.9, 1.1~1.6, 10.0, 100.0, 1000.0, 10000.0, 100000.0, 1000000.0, …""";
  "      },";
  "      ""kw"": {";
  "        ""pluralRule-count-zero"": ""n = 0 @integer 0 @decimal 0.0, 0.00, 0.000, 0.0000"",";
  "        ""pluralRule-count-one"": ""n = 1 @integer 1 @decimal 1.0, 1.00, 1.000, 1.0000"",";
  "        ""pluralRule-count-two"": ""n % 100 = 2,22,42,62,82 or n % 1000 = 0 and n % 100000 = 1000..20000,40000,60000,80000 or n != 0 and n % 1000000 = 100000 @integer 2, 22, 42, 62, 82, 102, 122, 142, 1000, 10000, 100000, … @decimal 2.0, 22.0, 42.0, 62.0, 82.0, 102.0, 122.0, 142.0, 1000.0, 10000.0, 100000.0, …"",";
  "        ""pluralRule-count-few"": ""n % 100 = 3,23,43,63,83 @integer 3, 23, 43, 63, 83, 103, 123, 143, 1003, … @decimal 3.0, 23.0, 43.0, 63.0, 83.0, 103.0, 123.0, 143.0, 1003.0, …"",";
  "        ""pluralRule-count-many"": ""n != 1 and n % 100 = 1,21,41,61,81 @integer 21, 41, 61, 81, 101, 121, 141, 161, 1001, … @decimal 21.0, 41.0, 61.0, 81.0, 101.0, 121.0, 141.0, 161.0, 1001.0, …"",";
  "        ""pluralRule-count-other"": "" @integer 4~19, 100, 1004, 1000000, … @decimal 0.1~0.9, 1.1~1.7, 10.0, 100.0, 1000.1, 1000000.0, …""";
  "      },";
  "      ""ky"": {";
  "        ""pluralRule-count-one"": ""n = 1 @integer 1 @decimal 1.0, 1.00, 1.000, 1.0000"",";
  "        ""pluralRule-count-other"": "" @integer 0, 2~16, 100, 1000, 10000, 100000, 1000000, … @decimal 0.0~0.9, 1.1~1.6, 10.0, 100.0, 1000.0, 10000.0, 100000.0, 1000000.0, …""";
  "      },";
  "      ""lag"": {";
  "        ""pluralRule-count-zero"": ""n = 0 @integer 0 @decimal 0.0, 0.00, 0.000, 0.0000"",";
  "        ""pluralRule-count-one"": ""i = 0,1 and n != 0 @integer 1 @decimal 0.1~1.6"",";
  "        ""pluralRule-count-other"": "" @integer 2~17, 100, 1000, 10000, 100000, 1000000, … @decimal 2.0~3.5, 10.0, 100.0, 1000.0, 10000.0, 100000.0, 1000000.0, …""";
  "      },";
  "      ""lb"": {";
  "        ""pluralRule-count-one"": ""n = 1 @integer 1 @decimal 1.0, 1.00, 1.000, 1.0000"",";
  "        ""pluralRule-count-other"": "" @integer 0, 2~16, 100, 1000, 10000, 100000, 1000000, … @decimal 0.0~0.9, 1.1~1.6, 10.0, 100.0, 1000.0, 10000.0, 100000.0, 1000000.0, …""";
  "      },";
  "      ""lg"": {";
  "        ""pluralRule-count-one"": ""n = 1 @integer 1 @decimal 1.0, 1.00, 1.000, 1.0000"",";
  "        ""pluralRule-count-other"": "" @integer 0, 2~16, 100, 1000, 10000, 100000, 1000000, … @decimal 0.0~0.9, 1.1~1.6, 10.0, 100.0, 1000.0, 10000.0, 100000.0, 1000000.0, …""";
  "      },";
  "      ""lkt"": {";
  "        ""pluralRule-count-other"": "" @integer 0~15, 100, 1000, 10000, 100000, 1000000, … @decimal 0.0~1.5, 10.0, 100.0, 1000.0, 10000.0, 100000.0, 1000000.0, …""";
  "      },";
  "      ""ln"": {";
  "        ""pluralRule-count-one"": ""n = 0..1 @integer 0, 1 @decimal 0.0, 1.0, 0.00, 1.00, 0.000, 1.000, 0.0000, 1.0000"",";
  "        ""pluralRule-count-other"": "" @integer 2~17, 100, 1000, 10000, 100000, 1000000, … @decimal 0.1~0.9, 1.1~1.7, 10.0, 100.0, 1000.0, 10000.0, 100000.0, 1000000.0, …""";
  "      },";
  "      ""lo"": {";
  "        ""pluralRule-count-other"": "" @integer 0~15, 100, 1000, 10000, 100000, 1000000, … @decimal 0.0~1.5, 10.0, 100.0, 1000.0, 10000.0, 100000.0, 1000000.0, …""";
  "      },";
  "      ""lt"": {";
  "        ""pluralRule-count-one"": ""n % 10 = 1 and n % 100 != 11..19 @integer 1, 21, 31, 41, 51, 61, 71, 81, 101, 1001, … @decimal 1.0, 21.0, 31.0, 41.0, 51.0, 61.0, 71.0, 81.0, 101.0, 1001.0, …"",";
  "        ""pluralRule-count-few"": ""n % 10 = 2..9 and n % 100 != 11..19 @integer 2~9, 22~29, 102, 1002, … @decimal 2.0, 3.0, 4.0, 5.0, 6.0, 7.0, 8.0, 9.0, 22.0, 102.0, 1002.0, …"",";
  "        ""pluralRule-count-many"": ""f != 0   @decimal 0.1~0.9, 1.1~1.7, 10.1, 100.1, 1000.1, …"",";
  "        ""pluralRule-count-other"": "" @integer 0, 10~20, 30, 40, 50, 60, 100, 1000, 10000, 100000, 1000000, … @decimal 0.0, 10.0, 11.0, 12.0, 13.0, 14.0, 15.0, 16.0, 100.0, 1000.0, 10000.0, 100000.0, 1000000.0, …""";
  "      },";
  "      ""lv"": {";
  "        ""pluralRule-count-zero"": ""n % 10 = 0 or n % 100 = 11..19 or v = 2 and f % 100 = 11..19 @integer 0, 10~20, 30, 40, 50, 60, 100, 1000, 10000, 100000, 1000000, … @decimal 0.0, 10.0, 11.0, 12.0, 13.0, 14.0, 15.0, 16.0, 100.0, 1000.0, 10000.0, 100000.0, 1000000.0, …"",";
  "        ""pluralRule-count-one"": ""n % 10 = 1 and n % 100 != 11 or v = 2 and f % 10 = 1 and f % 100 != 11 or v != 2 and f % 10 = 1 @integer 1, 21, 31, 41, 51, 61, 71, 81, 101, 1001, … @decimal 0.1, 1.0, 1.1, 2.1, 3.1, 4.1, 5.1, 6.1, 7.1, 10.1, 100.1, 1000.1, …"",";
  "        ""pluralRule-count-other"": "" @integer 2~9, 22~29, 102, 1002, … @decimal 0.2~0.9, 1.2~1.9, 10.2, 100.2, 1000.2, …""";
  "      },";
  "      ""mas"": {";
  "        ""pluralRule-count-one"": ""n = 1 @integer 1 @decimal 1.0, 1.00, 1.000, 1.0000"",";
  "        ""pluralRule-count-other"": "" @integer 0, 2~16, 100, 1000, 10000, 100000, 1000000, … @decimal 0.0~0.9, 1.1~1.6, 10.0, 100.0, 1000.0, 10000.0, 100000.0, 1000000.0, …""";
  "      },";
  "      ""mg"": {";
  "        ""pluralRule-count-one"": ""n = 0..1 @integer 0, 1 @decimal 0.0, 1.0, 0.00, 1.00, 0.000, 1.000, 0.0000, 1.0000"",";
  "        ""pluralRule-count-other"": "" @integer 2~17, 100, 1000, 10000, 100000, 1000000, … @decimal 0.1~0.9, 1.1~1.7, 10.0, 100.0, 1000.0, 10000.0, 100000.0, 1000000.0, …""";
  "      },";
  "      ""mgo"": {";
  "        ""pluralRule-count-one"": ""n = 1 @integer 1 @decimal 1.0, 1.00, 1.000, 1.0000"",";
  "        ""pluralRule-count-other"": "" @integer 0, 2~16, 100, 1000, 10000, 100000, 1000000, … @decimal 0.0~0.9, 1.1~1.6, 10.0, 100.0, 1000.0, 10000.0, 100000.0, 1000000.0, …""";
  "      },";
  "      ""mk"": {";
  "        ""pluralRule-count-one"": ""v = 0 and i % 10 = 1 and i % 100 != 11 or f % 10 = 1 and f % 100 != 11 @integer 1, 21, 31, 41, 51, 61, 71, 81, 101, 1001, … @decimal 0.1, 1.1, 2.1, 3.1, 4.1, 5.1, 6.1, 7.1, 10.1, 100.1, 1000.1, …"",";
  "        ""pluralRule-count-other"": "" @integer 0, 2~16, 100, 1000, 10000, 100000, 1000000, … @decimal 0.0, 0.2~1.0, 1.2~1.7, 10.0, 100.0, 1000.0, 10000.0, 100000.0, 1000000.0, …""";
  "      },";
  "      ""ml"": {";
  "        ""pluralRule-count-one"": ""n = 1 @integer 1 @decimal 1.0, 1.00, 1.000, 1.0000"",";
  "        ""pluralRule-count-other"": "" @integer 0, 2~16, 100, 1000, 10000, 100000, 1000000, … @decimal 0.0~0.9, 1.1~1.6, 10.0, 100.0, 1000.0, 10000.0, 100000.0, 1000000.0, …""";
  "      },";
  "      ""mn"": {";
  "        ""pluralRule-count-one"": ""n = 1 @integer 1 @decimal 1.0, 1.00, 1.000, 1.0000"",";
  "        ""pluralRule-count-other"": "" @integer 0, 2~16, 100, 1000, 10000, 100000, 1000000, … @decimal 0.0~0.9, 1.1~1.6, 10.0, 100.0, 1000.0, 10000.0, 100000.0, 1000000.0, …""";
  "      },";
  "      ""mo"": {";
  "        ""pluralRule-count-one"": ""i = 1 and v = 0 @integer 1"",";
  "        ""pluralRule-count-few"": ""v != 0 or n = 0 or n % 100 = 2..19 @integer 0, 2~16, 102, 1002, … @decimal 0.0~1.5, 10.0, 100.0, 1000.0, 10000.0, 100000.0, 1000000.0, …"",";
  "        ""pluralRule-count-other"": "" @integer 20~35, 100, 1000, 10000, 100000, 1000000, …""";
  "      },";
  "      ""mr"": {";
  "        ""pluralRule-count-one"": ""n = 1 @integer 1 @decimal 1.0, 1.00, 1.000, 1.0000"",";
  "        ""pluralRule-count-other"": "" @integer 0, 2~16, 100, 1000, 10000, 100000, 1000000, … @decimal 0.0~0.9, 1.1~1.6, 10.0, 100.0, 1000.0, 10000.0, 100000.0, 1000000.0, …""";
  "      },";
  "      ""ms"": {";
  "        ""pluralRule-count-other"": "" @integer 0~15, 100, 1000, 10000, 100000, 1000000, … @decimal 0.0~1.5, 10.0, 100.0, 1000.0, 10000.0, 100000.0, 1000000.0, …""";
  "      },";
  "      ""mt"": {";
  "        ""pluralRule-count-one"": ""n = 1 @integer 1 @decimal 1.0, 1.00, 1.000, 1.0000"",";
  "        ""pluralRule-count-few"": ""n = 0 or n % 100 = 2..10 @integer 0, 2~10, 102~107, 1002, … @decimal 0.0, 2.0, 3.0, 4.0, 5.0, 6.0, 7.0, 8.0, 10.0, 102.0, 1002.0, …"",";
  "        ""pluralRule-count-many"": ""n % 100 = 11..19 @integer 11~19, 111~117, 1011, … @decimal 11.0, 12.0, 13.0, 14.0, 15.0, 16.0, 17.0, 18.0, 111.0, 1011.0, …"",";
  "        ""pluralRule-count-other"": "" @integer 20~35, 100, 1000, 10000, 100000, 1000000, … @decimal 0.1~0.9, 1.1~1.7, 10.1, 100.0, 1000.0, 10000.0, 100000.0, 1000000.0, …""";
  "      },";
  "      ""my"": {";
  "        ""pluralRule-count-other"": "" @integer 0~15, 100, 1000, 10000, 100000, 1000000, … @decimal 0.0~1.5, 10.0, 100.0, 1000.0, 10000.0, 100000.0, 1000000.0, …""";
  "      },";
  "      ""nah"": {";
  "        ""pluralRule-count-one"": ""n = 1 @integer 1 @decimal 1.0, 1.00, 1.000, 1.0000"",";
  "        ""pluralRule-count-other"": "" @integer 0, 2~16, 100, 1000, 10000, 100000, 1000000, … @decimal 0.0~0.9, 1.1~1.6, 10.0, 100.0, 1000.0, 10000.0, 100000.0, 1000000.0, …""";
  "      },";
  "      ""naq"": {";
  "        ""pluralRule-count-one"": ""n = 1 @integer 1 @decimal 1.0, 1.00, 1.000, 1.0000"",";
  "        ""pluralRule-count-two"": ""n = 2 @integer 2 @decimal 2.0, 2.00, 2.000, 2.0000"",";
  "        ""pluralRule-count-other"": "" @integer 0, 3~17, 100, 1000, 10000, 100000, 1000000, … @decimal 0.0~0.9, 1.1~1.6, 10.0, 100.0, 1000.0, 10000.0, 100000.0, 1000000.0, …""";
  "      },";
  "      ""nb"": {";
  "        ""pluralRule-count-one"": ""n = 1 @integer 1 @decimal 1.0, 1.00, 1.000, 1.0000"",";
  "        ""pluralRule-count-other"": "" @integer 0, 2~16, 100, 1000, 10000, 100000, 1000000, … @decimal 0.0~0.9, 1.1~1.6, 10.0, 100.0, 1000.0, 10000.0, 100000.0, 1000000.0, …""";
  "      },";
  "      ""nd"": {";
  "        ""pluralRule-count-one"": ""n = 1 @integer 1 @decimal 1.0, 1.00, 1.000, 1.0000"",";
  "        ""pluralRule-count-other"": "" @integer 0, 2~16, 100, 1000, 10000, 100000, 1000000, … @decimal 0.0~0.9, 1.1~1.6, 10.0, 100.0, 1000.0, 10000.0, 100000.0, 1000000.0, …""";
  "      },";
  "      ""ne"": {";
  "        ""pluralRule-count-one"": ""n = 1 @integer 1 @decimal 1.0, 1.00, 1.000, 1.0000"",";
  "        ""pluralRule-count-other"": "" @integer 0, 2~16, 100, 1000, 10000, 100000, 1000000, … @decimal 0.0~0.9, 1.1~1.6, 10.0, 100.0, 1000.0, 10000.0, 100000.0, 1000000.0, …""";
  "      },";
  "      ""nl"": {";
  "        ""pluralRule-count-one"": ""i = 1 and v = 0 @integer 1"",";
  "        ""pluralRule-count-other"": "" @integer 0, 2~16, 100, 1000, 10000, 100000, 1000000, … @decimal 0.0~1.5, 10.0, 100.0, 1000.0, 10000.0, 100000.0, 1000000.0, …""";
  "      },";
  "      ""nn"": {";
  "        ""pluralRule-count-one"": ""n = 1 @integer 1 @decimal 1.0, 1.00, 1.000, 1.0000"",";
  "        ""pluralRule-count-other"": "" @integer 0, 2~16, 100, 1000, 10000, 100000, 1000000, … @decimal 0.0~0.9, 1.1~1.6, 10.0, 100.0, 1000.0, 10000.0, 100000.0, 1000000.0, …""";
  "      },";
  "      ""nnh"": {";
  "        ""pluralRule-count-one"": ""n = 1 @integer 1 @decimal 1.0, 1.00, 1.000, 1.0000"",";
  "        ""pluralRule-count-other"": "" @integer 0, 2~16, 100, 1000, 10000, 100000, 1000000, … @decimal 0.0~0.9, 1.1~1.6, 10.0, 100.0, 1000.0, 10000.0, 100000.0, 1000000.0, …""";
  "      },";
  "      ""no"": {";
  "        ""pluralRule-count-one"": ""n = 1 @integer 1 @decimal 1.0, 1.00, 1.000, 1.0000"",";
  "        ""pluralRule-count-other"": "" @integer 0, 2~16, 100, 1000, 10000, 100000, 1000000, … @decimal 0.0~0.9, 1.1~1.6, 10.0, 100.0, 1000.0, 10000.0, 100000.0, 1000000.0, …""";
  "      },";
  "      ""nqo"": {";
  "        ""pluralRule-count-other"": "" @integer 0~15, 100, 1000, 10000, 100000, 1000000, … @decimal 0.0~1.5, 10.0, 100.0, 1000.0, 10000.0, 100000.0, 1000000.0, …""";
  "      },";
  "      ""nr"": {";
  "        ""pluralRule-count-one"": ""n = 1 @integer 1 @decimal 1.0, 1.00, 1.000, 1.0000"",";
  "        ""pluralRule-count-other"": "" @integer 0, 2~16, 100, 1000, 10000, 100000, 1000000, … @decimal 0.0~0.9, 1.1~1.6, 10.0, 100.0, 1000.0, 10000.0, 100000.0, 1000000.0, …""";
  "      },";
  "      ""nso"": {";
  "        ""pluralRule-count-one"": ""n = 0..1 @integer 0, 1 @decimal 0.0, 1.0, 0.00, 1.00, 0.000, 1.000, 0.0000, 1.0000"",";
  "        ""pluralRule-count-other"": "" @integer 2~17, 100, 1000, 10000, 100000, 1000000, … @decimal 0.1~0.9, 1.1~1.7, 10.0, 100.0, 1000.0, 10000.0, 100000.0, 1000000.0, …""";
  "      },";
  "      ""ny"": {";
  "        ""pluralRule-count-one"": ""n = 1 @integer 1 @decimal 1.0, 1.00, 1.000, 1.0000"",";
  "        ""pluralRule-count-other"": "" @integer 0, 2~16, 100, 1000, 10000, 100000, 1000000, … @decimal 0.0~0.9, 1.1~1.6, 10.0, 100.0, 1000.0, 10000.0, 100000.0, 1000000.0, …""";
  "      },";
  "      ""nyn"": {";
  "        ""pluralRule-count-one"": ""n = 1 @integer 1 @decimal 1.0, 1.00, 1.000, 1.0000"",";
  "        ""pluralRule-count-other"": "" @integer 0, 2~16, 100, 1000, 10000, 100000, 1000000, … @decimal 0.0~0.9, 1.1~1.6, 10.0, 100.0, 1000.0, 10000.0, 100000.0, 1000000.0, …""";
  "      },";
  "      ""om"": {";
  "        ""pluralRule-count-one"": ""n = 1 @integer 1 @decimal 1.0, 1.00, 1.000, 1.0000"",";
  "        ""pluralRule-count-other"": "" @integer 0, 2~16, 100, 1000, 10000, 100000, 1000000, … @decimal 0.0~0.9, 1.1~1.6, 10.0, 100.0, 1000.0, 10000.0, 100000.0, 1000000.0, …""";
  "      },";
  "      ""or"": {";
  "        ""pluralRule-count-one"": ""n = 1 @integer 1 @decimal 1.0, 1.00, 1.000, 1.0000"",";
  "        ""pluralRule-count-other"": "" @integer 0, 2~16, 100, 1000, 10000, 100000, 1000000, … @decimal 0.0~0.9, 1.1~1.6, 10.0, 100.0, 1000.0, 10000.0, 100000.0, 1000000.0, …""";
  "      },";
  "      ""os"": {";
  "        ""pluralRule-count-one"": ""n = 1 @integer 1 @decimal 1.0, 1.00, 1.000, 1.0000"",";
  "        ""pluralRule-count-other"": "" @integer 0, 2~16, 100, 1000, 10000, 100000, 1000000, … @decimal 0.0~0.9, 1.1~1.6, 10.0, 100.0, 1000.0, 10000.0, 100000.0, 1000000.0, …""";
  "      },";
  "      ""osa"": {";
  "        ""pluralRule-count-other"": "" @integer 0~15, 100, 1000, 10000, 100000, 1000000, … @decimal 0.0~1.5, 10.0, 100.0, 1000.0, 10000.0, 100000.0, 1000000.0, …""";
  "      },";
  "      ""pa"": {";
  "        ""pluralRule-count-one"": ""n = 0..1 @integer 0, 1 @decimal 0.0, 1.0, 0.00, 1.00, 0.000, 1.000, 0.0000, 1.0000"",";
  "        ""pluralRule-count-other"": "" @integer 2~17, 100, 1000, 10000, 100000, 1000000, … @decimal 0.1~0.9, 1.1~1.7, 10.0, 100.0, 1000.0, 10000.0, 100000.0, 1000000.0, …""";
  "      },";
  "      ""pap"": {";
  "        ""pluralRule-count-one"": ""n = 1 @integer 1 @decimal 1.0, 1.00, 1.000, 1.0000"",";
  "        ""pluralRule-count-other"": "" @integer 0, 2~16, 100, 1000, 10000, 100000, 1000000, … @decimal 0.0~0.9, 1.1~1.6, 10.0, 100.0, 1000.0, 10000.0, 100000.0, 1000000.0, …""";
  "      },";
  "      ""pcm"": {";
  "        ""pluralRule-count-one"": ""i = 0 or n = 1 @integer 0, 1 @decimal 0.0~1.0, 0.00~0.04"",";
  "        ""pluralRule-count-other"": "" @integer 2~17, 100, 1000, 10000, 100000, 1000000, … @decimal 1.1~2.6, 10.0, 100.0, 1000.0, 10000.0, 100000.0, 1000000.0, …""";
  "      },";
  "      ""pl"": {";
  "        ""pluralRule-count-one"": ""i = 1 and v = 0 @integer 1"",";
  "        ""pluralRule-count-few"": ""v = 0 and i % 10 = 2..4 and i % 100 != 12..14 @integer 2~4, 22~24, 32~34, 42~44, 52~54, 62, 102, 1002, …"",";
  "        ""pluralRule-count-many"": ""v = 0 and i != 1 and i % 10 = 0..1 or v = 0 and i % 10 = 5..9 or v = 0 and i % 100 = 12..14 @integer 0, 5~19, 100, 1000, 10000, 100000, 1000000, …"",";
  "        ""pluralRule-count-other"": ""   @decimal 0.0~1.5, 10.0, 100.0, 1000.0, 10000.0, 100000.0, 1000000.0, …""";
  "      },";
  "      ""prg"": {";
  "        ""pluralRule-count-zero"": ""n % 10 = 0 or n % 100 = 11..19 or v = 2 and f % 100 = 11..19 @integer 0, 10~20, 30, 40, 50, 60, 100, 1000, 10000, 100000, 1000000, … @decimal 0.0, 10.0, 11.0, 12.0, 13.0, 14.0, 15.0, 16.0, 100.0, 1000.0, 10000.0, 100000.0, 1000000.0, …"",";
  "        ""pluralRule-count-one"": ""n % 10 = 1 and n % 100 != 11 or v = 2 and f % 10 = 1 and f % 100 != 11 or v != 2 and f % 10 = 1 @integer 1, 21, 31, 41, 51, 61, 71, 81, 101, 1001, … @decimal 0.1, 1.0, 1.1, 2.1, 3.1, 4.1, 5.1, 6.1, 7.1, 10.1, 100.1, 1000.1, …"",";
  "        ""pluralRule-count-other"": "" @integer 2~9, 22~29, 102, 1002, … @decimal 0.2~0.9, 1.2~1.9, 10.2, 100.2, 1000.2, …""";
  "      },";
  "      ""ps"": {";
  "        ""pluralRule-count-one"": ""n = 1 @integer 1 @decimal 1.0, 1.00, 1.000, 1.0000"",";
  "        ""pluralRule-count-other"": "" @integer 0, 2~16, 100, 1000, 10000, 100000, 1000000, … @decimal 0.0~0.9, 1.1~1.6, 10.0, 100.0, 1000.0, 10000.0, 100000.0, 1000000.0, …""";
  "      },";
  "      ""pt"": {";
  "        ""pluralRule-count-one"": ""i = 0..1 @integer 0, 1 @decimal 0.0~1.5"",";
  "        ""pluralRule-count-other"": "" @integer 2~17, 100, 1000, 10000, 100000, 1000000, … @decimal 2.0~3.5, 10.0, 100.0, 1000.0, 10000.0, 100000.0, 1000000.0, …""";
  "      },";
  "      ""pt-PT"": {";
  "        ""pluralRule-count-one"": ""i = 1 and v = 0 @integer 1"",";
  "        ""pluralRule-count-other"": "" @integer 0, 2~16, 100, 1000, 10000, 100000, 1000000, … @decimal 0.0~1.5, 10.0, 100.0, 1000.0, 10000.0, 100000.0, 1000000.0, …""";
  "      },";
  "      ""rm"": {";
  "        ""pluralRule-count-one"": ""n = 1 @integer 1 @decimal 1.0, 1.00, 1.000, 1.0000"",";
  "        ""pluralRule-count-other"": "" @integer 0, 2~16, 100, 1000, 10000, 100000, 1000000, … @decimal 0.0~0.9, 1.1~1.6, 10.0, 100.0, 1000.0, 10000.0, 100000.0, 1000000.0, …""";
  "      },";
  "      ""ro"": {";
  "        ""pluralRule-count-one"": ""i = 1 and v = 0 @integer 1"",";
  "        ""pluralRule-count-few"": ""v != 0 or n = 0 or n % 100 = 2..19 @integer 0, 2~16, 102, 1002, … @decimal 0.0~1.5, 10.0, 100.0, 1000.0, 10000.0, 100000.0, 1000000.0, …"",";
  "        ""pluralRule-count-other"": "" @integer 20~35, 100, 1000, 10000, 100000, 1000000, …""";
  "      },";
  "      ""rof"": {";
  "        ""pluralRule-count-one"": ""n = 1 @integer 1 @decimal 1.0, 1.00, 1.000, 1.0000"",";
  "        ""pluralRule-count-other"": "" @integer 0, 2~16, 100, 1000, 10000, 100000, 1000000, … @decimal 0.0~0.9, 1.1~1.6, 10.0, 100.0, 1000.0, 10000.0, 100000.0, 1000000.0, …""";
  "      },";
  "      ""root"": {";
  "        ""pluralRule-count-other"": "" @integer 0~15, 100, 1000, 10000, 100000, 1000000, … @decimal 0.0~1.5, 10.0, 100.0, 1000.0, 10000.0, 100000.0, 1000000.0, …""";
  "      },";
  "      ""ru"": {";
  "        ""pluralRule-count-one"": ""v = 0 and i % 10 = 1 and i % 100 != 11 @integer 1, 21, 31, 41, 51, 61, 71, 81, 101, 1001, …"",";
  "        ""pluralRule-count-few"": ""v = 0 and i % 10 = 2..4 and i % 100 != 12..14 @integer 2~4, 22~24, 32~34, 42~44, 52~54, 62, 102, 1002, …"",";
  "        ""pluralRule-count-many"": ""v = 0 and i % 10 = 0 or v = 0 and i % 10 = 5..9 or v = 0 and i % 100 = 11..14 @integer 0, 5~19, 100, 1000, 10000, 100000, 1000000, …"",";
  "        ""pluralRule-count-other"": ""   @decimal 0.0~1.5, 10.0, 100.0, 1000.0, 10000.0, 100000.0, 1000000.0, …""";
  "      },";
  "      ""rwk"": {";
  "        ""pluralRule-count-one"": ""n = 1 @integer 1 @decimal 1.0, 1.00, 1.000, 1.0000"",";
  "        ""pluralRule-count-other"": "" @integer 0, 2~16, 100, 1000, 10000, 100000, 1000000, … @decimal 0.0~0.9, 1.1~1.6, 10.0, 100.0, 1000.0, 10000.0, 100000.0, 1000000.0, …""";
  "      },";
  "      ""sah"": {";
  "        ""pluralRule-count-other"": "" @integer 0~15, 100, 1000, 10000, 100000, 1000000, … @decimal 0.0~1.5, 10.0, 100.0, 1000.0, 10000.0, 100000.0, 1000000.0, …""";
  "      },";
  "      ""saq"": {";
  "        ""pluralRule-count-one"": ""n = 1 @integer 1 @decimal 1.0, 1.00, 1.000, 1.0000"",";
  "        ""pluralRule-count-other"": "" @integer 0, 2~16, 100, 1000, 10000, 100000, 1000000, … @decimal 0.0~0.9, 1.1~1.6, 10.0, 100.0, 1000.0, 10000.0, 100000.0, 1000000.0, …""";
  "      },";
  "      ""sat"": {";
  "        ""pluralRule-count-one"": ""n = 1 @integer 1 @decimal 1.0, 1.00, 1.000, 1.0000"",";
  "        ""pluralRule-count-two"": ""n = 2 @integer 2 @decimal 2.0, 2.00, 2.000, 2.0000"",";
  "        ""pluralRule-count-other"": "" @integer 0, 3~17, 100, 1000, 10000, 100000, 1000000, … @decimal 0.0~0.9, 1.1~1.6, 10.0, 100.0, 1000.0, 10000.0, 100000.0, 1000000.0, …""";
  "      },";
  "      ""sc"": {";
  "        ""pluralRule-count-one"": ""i = 1 and v = 0 @integer 1"",";
  "        ""pluralRule-count-other"": "" @integer 0, 2~16, 100, 1000, 10000, 100000, 1000000, … @decimal 0.0~1.5, 10.0, 100.0, 1000.0, 10000.0, 100000.0, 1000000.0, …""";
  "      },";
  "      ""scn"": {";
  "        ""pluralRule-count-one"": ""i = 1 and v = 0 @integer 1"",";
  "        ""pluralRule-count-other"": "" @integer 0, 2~16, 100, 1000, 10000, 100000, 1000000, … @decimal 0.0~1.5, 10.0, 100.0, 1000.0, 10000.0, 100000.0, 1000000.0, …""";
  "      },";
  "      ""sd"": {";
  "        ""pluralRule-count-one"": ""n = 1 @integer 1 @decimal 1.0, 1.00, 1.000, 1.0000"",";
  "        ""pluralRule-count-other"": "" @integer 0, 2~16, 100, 1000, 10000, 100000, 1000000, … @decimal 0.0~0.9, 1.1~1.6, 10.0, 100.0, 1000.0, 10000.0, 100000.0, 1000000.0, …""";
  "      },";
  "      ""sdh"": {";
  "        ""pluralRule-count-one"": ""n = 1 @integer 1 @decimal 1.0, 1.00, 1.000, 1.0000"",";
  "        ""pluralRule-count-other"": "" @integer 0, 2~16, 100, 1000, 10000, 100000, 1000000, … @decimal 0.0~0.9, 1.1~1.6, 10.0, 100.0, 1000.0, 10000.0, 100000.0, 1000000.0, …""";
  "      },";
  "      ""se"": {";
  "        ""pluralRule-count-one"": ""n = 1 @integer 1 @decimal 1.0, 1.00, 1.000, 1.0000"",";
  "        ""pluralRule-count-two"": ""n = 2 @integer 2 @decimal 2.0, 2.00, 2.000, 2.0000"",";
  "        ""pluralRule-count-other"": "" @integer 0, 3~17, 100, 1000, 10000, 100000, 1000000, … @decimal 0.0~0.9, 1.1~1.6, 10.0, 100.0, 1000.0, 10000.0, 100000.0, 1000000.0, …""";
  "      },";
  "      ""seh"": {";
  "        ""pluralRule-count-one"": ""n = 1 @integer 1 @decimal 1.0, 1.00, 1.000, 1.0000"",";
  "        ""pluralRule-count-other"": "" @integer 0, 2~16, 100, 1000, 10000, 100000, 1000000, … @decimal 0.0~0.9, 1.1~1.6, 10.0, 100.0, 1000.0, 10000.0, 100000.0, 1000000.0, …""";
  "      },";
  "      ""ses"": {";
  "        ""pluralRule-count-other"": "" @integer 0~15, 100, 1000, 10000, 100000, 1000000, … @decimal 0.0~1.5, 10.0, 100.0, 1000.0, 10000.0, 100000.0, 1000000.0, …""";
  "      },";
  "      ""sg"": {";
  "        ""pluralRule-count-other"": "" @integer 0~15, 100, 1000, 10000, 100000, 1000000, … @decimal 0.0~1.5, 10.0, 100.0, 1000.0, 10000.0, 100000.0, 1000000.0, …""";
  "      },";
  "      ""sh"": {";
  "        ""pluralRule-count-one"": ""v = 0 and i % 10 = 1 and i % 100 != 11 or f % 10 = 1 and f % 100 != 11 @integer 1, 21, 31, 41, 51, 61, 71, 81, 101, 1001, … @decimal 0.1, 1.1, 2.1, 3.1, 4.1, 5.1, 6.1, 7.1, 10.1, 100.1, 1000.1, …"",";
  "        ""pluralRule-count-few"": ""v = 0 and i % 10 = 2..4 and i % 100 != 12..14 or f % 10 = 2..4 and f % 100 != 12..14 @integer 2~4, 22~24, 32~34, 42~44, 52~54, 62, 102, 1002, … @decimal 0.2~0.4, 1.2~1.4, 2.2~2.4, 3.2~3.4, 4.2~4.4, 5.2, 10.2, 100.2, 1000.2, …"",";
  "        ""pluralRule-count-other"": "" @integer 0, 5~19, 100, 1000, 10000, 100000, 1000000, … @decimal 0.0, 0.5~1.0, 1.5~2.0, 2.5~2.7, 10.0, 100.0, 1000.0, 10000.0, 100000.0, 1000000.0, …""";
  "      },";
  "      ""shi"": {";
  "        ""pluralRule-count-one"": ""i = 0 or n = 1 @integer 0, 1 @decimal 0.0~1.0, 0.00~0.04"",";
  "        ""pluralRule-count-few"": ""n = 2..10 @integer 2~10 @decimal 2.0, 3.0, 4.0, 5.0, 6.0, 7.0, 8.0, 9.0, 10.0, 2.00, 3.00, 4.00, 5.00, 6.00, 7.00, 8.00"",";
  "        ""pluralRule-count-other"": "" @integer 11~26, 100, 1000, 10000, 100000, 1000000, … @decimal 1.1~1.9, 2.1~2.7, 10.1, 100.0, 1000.0, 10000.0, 100000.0, 1000000.0, …""";
  "      },";
  "      ""si"": {";
  "        ""pluralRule-count-one"": ""n = 0,1 or i = 0 and f = 1 @integer 0, 1 @decimal 0.0, 0.1, 1.0, 0.00, 0.01, 1.00, 0.000, 0.001, 1.000, 0.0000, 0.0001, 1.0000"",";
  "        ""pluralRule-count-other"": "" @integer 2~17, 100, 1000, 10000, 100000, 1000000, … @decimal 0.2~0.9, 1.1~1.8, 10.0, 100.0, 1000.0, 10000.0, 100000.0, 1000000.0, …""";
  "      },";
  "      ""sk"": {";
  "        ""pluralRule-count-one"": ""i = 1 and v = 0 @integer 1"",";
  "        ""pluralRule-count-few"": ""i = 2..4 and v = 0 @integer 2~4"",";
  "        ""pluralRule-count-many"": ""v != 0   @decimal 0.0~1.5, 10.0, 100.0, 1000.0, 10000.0, 100000.0, 1000000.0, …"",";
  "        ""pluralRule-count-other"": "" @integer 0, 5~19, 100, 1000, 10000, 100000, 1000000, …""";
  "      },";
  "      ""sl"": {";
  "        ""pluralRule-count-one"": ""v = 0 and i % 100 = 1 @integer 1, 101, 201, 301, 401, 501, 601, 701, 1001, …"",";
  "        ""pluralRule-count-two"": ""v = 0 and i % 100 = 2 @integer 2, 102, 202, 302, 402, 502, 602, 702, 1002, …"",";
  "        ""pluralRule-count-few"": ""v = 0 and i % 100 = 3..4 or v != 0 @integer 3, 4, 103, 104, 203, 204, 303, 304, 403, 404, 503, 504, 603, 604, 703, 704, 1003, … @decimal 0.0~1.5, 10.0, 100.0, 1000.0, 10000.0, 100000.0, 1000000.0, …"",";
  "        ""pluralRule-count-other"": "" @integer 0, 5~19, 100, 1000, 10000, 100000, 1000000, …""";
  "      },";
  "      ""sma"": {";
  "        ""pluralRule-count-one"": ""n = 1 @integer 1 @decimal 1.0, 1.00, 1.000, 1.0000"",";
  "        ""pluralRule-count-two"": ""n = 2 @integer 2 @decimal 2.0, 2.00, 2.000, 2.0000"",";
  "        ""pluralRule-count-other"": "" @integer 0, 3~17, 100, 1000, 10000, 100000, 1000000, … @decimal 0.0~0.9, 1.1~1.6, 10.0, 100.0, 1000.0, 10000.0, 100000.0, 1000000.0, …""";
  "      },";
  "      ""smi"": {";
  "        ""pluralRule-count-one"": ""n = 1 @integer 1 @decimal 1.0, 1.00, 1.000, 1.0000"",";
  "        ""pluralRule-count-two"": ""n = 2 @integer 2 @decimal 2.0, 2.00, 2.000, 2.0000"",";
  "        ""pluralRule-count-other"": "" @integer 0, 3~17, 100, 1000, 10000, 100000, 1000000, … @decimal 0.0~0.9, 1.1~1.6, 10.0, 100.0, 1000.0, 10000.0, 100000.0, 1000000.0, …""";
  "      },";
  "      ""smj"": {";
  "        ""pluralRule-count-one"": ""n = 1 @integer 1 @decimal 1.0, 1.00, 1.000, 1.0000"",";
  "        ""pluralRule-count-two"": ""n = 2 @integer 2 @decimal 2.0, 2.00, 2.000, 2.0000"",";
  "        ""pluralRule-count-other"": "" @integer 0, 3~17, 100, 1000, 10000, 100000, 1000000, … @decimal 0.0~0.9, 1.1~1.6, 10.0, 100.0, 1000.0, 10000.0, 100000.0, 1000000.0, …""";
  "      },";
  "      ""smn"": {";
  "        ""pluralRule-count-one"": ""n = 1 @integer 1 @decimal 1.0, 1.00, 1.000, 1.0000"",";
  "        ""pluralRule-count-two"": ""n = 2 @integer 2 @decimal 2.0, 2.00, 2.000, 2.0000"",";
  "        ""pluralRule-count-other"": "" @integer 0, 3~17, 100, 1000, 10000, 100000, 1000000, … @decimal 0.0~0.9, 1.1~1.6, 10.0, 100.0, 1000.0, 10000.0, 100000.0, 1000000.0, …""";
  "      },";
  "      ""sms"": {";
  "        ""pluralRule-count-one"": ""n = 1 @integer 1 @decimal 1.0, 1.00, 1.000, 1.0000"",";
  "        ""pluralRule-count-two"": ""n = 2 @integer 2 @decimal 2.0, 2.00, 2.000, 2.0000"",";
  "        ""pluralRule-count-other"": "" @integer 0, 3~17, 100, 1000, 10000, 100000, 1000000, … @decimal 0.0~0.9, 1.1~1.6, 10.0, 100.0, 1000.0, 10000.0, 100000.0, 1000000.0, …""";
  "      },";
  "      ""sn"": {";
  "        ""pluralRule-count-one"": ""n = 1 @integer 1 @decimal 1.0, 1.00, 1.000, 1.0000"",";
  "        ""pluralRule-count-other"": "" @integer 0, 2~16, 100, 1000, 10000, 100000, 1000000, … @decimal 0.0~0.9, 1.1~1.6, 10.0, 100.0, 1000.0, 10000.0, 100000.0, 1000000.0, …""";
  "      },";
  "      ""so"": {";
  "        ""pluralRule-count-one"": ""n = 1 @integer 1 @decimal 1.0, 1.00, 1.000, 1.0000"",";
  "        ""pluralRule-count-other"": "" @integer 0, 2~16, 100, 1000, 10000, 100000, 1000000, … @decimal 0.0~0.9, 1.1~1.6, 10.0, 100.0, 1000.0, 10000.0, 100000.0, 1000000.0, …""";
  "      },";
  "      ""sq"": {";
  "        ""pluralRule-count-one"": ""n = 1 @integer 1 @decimal 1.0, 1.00, 1.000, 1.0000"",";
  "        ""pluralRule-count-other"": "" @integer 0, 2~16, 100, 1000, 10000, 100000, 1000000, … @decimal 0.0~0.9, 1.1~1.6, 10.0, 100.0, 1000.0, 10000.0, 100000.0, 1000000.0, …""";
  "      },";
  "      ""sr"": {";
  "        ""pluralRule-count-one"": ""v = 0 and i % 10 = 1 and i % 100 != 11 or f % 10 = 1 and f % 100 != 11 @integer 1, 21, 31, 41, 51, 61, 71, 81, 101, 1001, … @decimal 0.1, 1.1, 2.1, 3.1, 4.1, 5.1, 6.1, 7.1, 10.1, 100.1, 1000.1, …"",";
  "        ""pluralRule-count-few"": ""v = 0 and i % 10 = 2..4 and i % 100 != 12..14 or f % 10 = 2..4 and f % 100 != 12..14 @integer 2~4, 22~24, 32~34, 42~44, 52~54, 62, 102, 1002, … @decimal 0.2~0.4, 1.2~1.4, 2.2~2.4, 3.2~3.4, 4.2~4.4, 5.2, 10.2, 100.2, 1000.2, …"",";
  "        ""pluralRule-count-other"": "" @integer 0, 5~19, 100, 1000, 10000, 100000, 1000000, … @decimal 0.0, 0.5~1.0, 1.5~2.0, 2.5~2.7, 10.0, 100.0, 1000.0, 10000.0, 100000.0, 1000000.0, …""";
  "      },";
  "      ""ss"": {";
  "        ""pluralRule-count-one"": ""n = 1 @integer 1 @decimal 1.0, 1.00, 1.000, 1.0000"",";
  "        ""pluralRule-count-other"": "" @integer 0, 2~16, 100, 1000, 10000, 100000, 1000000, … @decimal 0.0~0.9, 1.1~1.6, 10.0, 100.0, 1000.0, 10000.0, 100000.0, 1000000.0, …""";
  "      },";
  "      ""ssy"": {";
  "        ""pluralRule-count-one"": ""n = 1 @integer 1 @decimal 1.0, 1.00, 1.000, 1.0000"",";
  "        ""pluralRule-count-other"": "" @integer 0, 2~16, 100, 1000, 10000, 100000, 1000000, … @decimal 0.0~0.9, 1.1~1.6, 10.0, 100.0, 1000.0, 10000.0, 100000.0, 1000000.0, …""";
  "      },";
  "      ""st"": {";
  "        ""pluralRule-count-one"": ""n = 1 @integer 1 @decimal 1.0, 1.00, 1.000, 1.0000"",";
  "        ""pluralRule-count-other"": "" @integer 0, 2~16, 100, 1000, 10000, 100000, 1000000, … @decimal 0.0~0.9, 1.1~1.6, 10.0, 100.0, 1000.0, 10000.0, 100000.0, 1000000.0, …""";
  "      },";
  "      ""su"": {";
  "        ""pluralRule-count-other"": "" @integer 0~15, 100, 1000, 10000, 100000, 1000000, … @decimal 0.0~1.5, 10.0, 100.0, 1000.0, 10000.0, 100000.0, 1000000.0, …""";
  "      },";
  "      ""sv"": {";
  "        ""pluralRule-count-one"": ""i = 1 and v = 0 @integer 1"",";
  "        ""pluralRule-count-other"": "" @integer 0, 2~16, 100, 1000, 10000, 100000, 1000000, … @decimal 0.0~1.5, 10.0, 100.0, 1000.0, 10000.0, 100000.0, 1000000.0, …""";
  "      },";
  "      ""sw"": {";
  "        ""pluralRule-count-one"": ""i = 1 and v = 0 @integer 1"",";
  "        ""pluralRule-count-other"": "" @integer 0, 2~16, 100, 1000, 10000, 100000, 1000000, … @decimal 0.0~1.5, 10.0, 100.0, 1000.0, 10000.0, 100000.0, 1000000.0, …""";
  "      },";
  "      ""syr"": {";
  "        ""pluralRule-count-one"": ""n = 1 @integer 1 @decimal 1.0, 1.00, 1.000, 1.0000"",";
  "        ""pluralRule-count-other"": "" @integer 0, 2~16, 100, 1000, 10000, 100000, 1000000, … @decimal 0.0~0.9, 1.1~1.6, 10.0, 100.0, 1000.0, 10000.0, 100000.0, 1000000.0, …""";
  "      },";
  "      ""ta"": {";
  "        ""pluralRule-count-one"": ""n = 1 @integer 1 @decimal 1.0, 1.00, 1.000, 1.0000"",";
  "        ""pluralRule-count-other"": "" @integer 0, 2~16, 100, 1000, 10000, 100000, 1000000, … @decimal 0.0~0.9, 1.1~1.6, 10.0, 100.0, 1000.0, 10000.0, 100000.0, 1000000.0, …""";
  "      },";
  "      ""te"": {";
  "        ""pluralRule-count-one"": ""n = 1 @integer 1 @decimal 1.0, 1.00, 1.000, 1.0000"",";
  "        ""pluralRule-count-other"": "" @integer 0, 2~16, 100, 1000, 10000, 100000, 1000000, … @decimal 0.0~0.9, 1.1~1.6, 10.0, 100.0, 1000.0, 10000.0, 100000.0, 1000000.0, …""";
  "      },";
  "      ""teo"": {";
  "        ""pluralRule-count-one"": ""n = 1 @integer 1 @decimal 1.0, 1.00, 1.000, 1.0000"",";
  "        ""pluralRule-count-other"": "" @integer 0, 2~16, 100, 1000, 10000, 100000, 1000000, … @decimal 0.0~0.9, 1.1~1.6, 10.0, 100.0, 1000.0, 10000.0, 100000.0, 1000000.0, …""";
  "      },";
  "      ""th"": {";
  "        ""pluralRule-count-other"": "" @integer 0~15, 100, 1000, 10000, 100000, 1000000, … @decimal 0.0~1.5, 10.0, 100.0, 1000.0, 10000.0, 100000.0, 1000000.0, …""";
  "      },";
  "      ""ti"": {";
  "        ""pluralRule-count-one"": ""n = 0..1 @integer 0, 1 @decimal 0.0, 1.0, 0.00, 1.00, 0.000, 1.000, 0.0000, 1.0000"",";
  "        ""pluralRule-count-other"": "" @integer 2~17, 100, 1000, 10000, 100000, 1000000, … @decimal 0.1~0.9, 1.1~1.7, 10.0, 100.0, 1000.0, 10000.0, 100000.0, 1000000.0, …""";
  "      },";
  "      ""tig"": {";
  "        ""pluralRule-count-one"": ""n = 1 @integer 1 @decimal 1.0, 1.00, 1.000, 1.0000"",";
  "        ""pluralRule-count-other"": "" @integer 0, 2~16, 100, 1000, 10000, 100000, 1000000, … @decimal 0.0~0.9, 1.1~1.6, 10.0, 100.0, 1000.0, 10000.0, 100000.0, 1000000.0, …""";
  "      },";
  "      ""tk"": {";
  "        ""pluralRule-count-one"": ""n = 1 @integer 1 @decimal 1.0, 1.00, 1.000, 1.0000"",";
  "        ""pluralRule-count-other"": "" @integer 0, 2~16, 100, 1000, 10000, 100000, 1000000, … @decimal 0.0~0.9, 1.1~1.6, 10.0, 100.0, 1000.0, 10000.0, 100000.0, 1000000.0, …""";
  "      },";
  "      ""tl"": {";
  "        ""pluralRule-count-one"": ""v = 0 and i = 1,2,3 or v = 0 and i % 10 != 4,6,9 or v != 0 and f % 10 != 4,6,9 @integer 0~3, 5, 7, 8, 10~13, 15, 17, 18, 20, 21, 100, 1000, 10000, 100000, 1000000, … @decimal 0.0~0.3, 0.5, 0.7, 0.8, 1.0~1.3, 1.5, 1.7, 1.8, 2.0, 2.1, 10.0, 100.0, 1000.0, 10000.0, 100000.0, 1000000.0, …"",";
  "        ""pluralRule-count-other"": "" @integer 4, 6, 9, 14, 16, 19, 24, 26, 104, 1004, … @decimal 0.4, 0.6, 0.9, 1.4, 1.6, 1.9, 2.4, 2.6, 10.4, 100.4, 1000.4, …""";
  "      },";
  "      ""tn"": {";
  "        ""pluralRule-count-one"": ""n = 1 @integer 1 @decimal 1.0, 1.00, 1.000, 1.0000"",";
  "        ""pluralRule-count-other"": "" @integer 0, 2~16, 100, 1000, 10000, 100000, 1000000, … @decimal 0.0~0.9, 1.1~1.6, 10.0, 100.0, 1000.0, 10000.0, 100000.0, 1000000.0, …""";
  "      },";
  "      ""to"": {";
  "        ""pluralRule-count-other"": "" @integer 0~15, 100, 1000, 10000, 100000, 1000000, … @decimal 0.0~1.5, 10.0, 100.0, 1000.0, 10000.0, 100000.0, 1000000.0, …""";
  "      },";
  "      ""tr"": {";
  "        ""pluralRule-count-one"": ""n = 1 @integer 1 @decimal 1.0, 1.00, 1.000, 1.0000"",";
  "        ""pluralRule-count-other"": "" @integer 0, 2~16, 100, 1000, 10000, 100000, 1000000, … @decimal 0.0~0.9, 1.1~1.6, 10.0, 100.0, 1000.0, 10000.0, 100000.0, 1000000.0, …""";
  "      },";
  "      ""ts"": {";
  "        ""pluralRule-count-one"": ""n = 1 @integer 1 @decimal 1.0, 1.00, 1.000, 1.0000"",";
  "        ""pluralRule-count-other"": "" @integer 0, 2~16, 100, 1000, 10000, 100000, 1000000, … @decimal 0.0~0.9, 1.1~1.6, 10.0, 100.0, 1000.0, 10000.0, 100000.0, 1000000.0, …""";
  "      },";
  "      ""tzm"": {";
  "        ""pluralRule-count-one"": ""n = 0..1 or n = 11..99 @integer 0, 1, 11~24 @decimal 0.0, 1.0, 11.0, 12.0, 13.0, 14.0, 15.0, 16.0, 17.0, 18.0, 19.0, 20.0, 21.0, 22.0, 23.0, 24.0"",";
  "        ""pluralRule-count-other"": "" @integer 2~10, 100~106, 1000, 10000, 100000, 1000000, … @decimal 0.1~0.9, 1.1~1.7, 10.0, 100.0, 1000.0, 10000.0, 100000.0, 1000000.0, …""";
  "      },";
  "      ""ug"": {";
  "        ""pluralRule-count-one"": ""n = 1 @integer 1 @decimal 1.0, 1.00, 1.000, 1.0000"",";
  "        ""pluralRule-count-other"": "" @integer 0, 2~16, 100, 1000, 10000, 100000, 1000000, … @decimal 0.0~0.9, 1.1~1.6, 10.0, 100.0, 1000.0, 10000.0, 100000.0, 1000000.0, …""";
  "      },";
  "      ""uk"": {";
  "        ""pluralRule-count-one"": ""v = 0 and i % 10 = 1 and i % 100 != 11 @integer 1, 21, 31, 41, 51, 61, 71, 81, 101, 1001, …"",";
  "        ""pluralRule-count-few"": ""v = 0 and i % 10 = 2..4 and i % 100 != 12..14 @integer 2~4, 22~24, 32~34, 42~44, 52~54, 62, 102, 1002, …"",";
  "        ""pluralRule-count-many"": ""v = 0 and i % 10 = 0 or v = 0 and i % 10 = 5..9 or v = 0 and i % 100 = 11..14 @integer 0, 5~19, 100, 1000, 10000, 100000, 1000000, …"",";
  "        ""pluralRule-count-other"": ""   @decimal 0.0~1.5, 10.0, 100.0, 1000.0, 10000.0, 100000.0, 1000000.0, …""";
  "      },";
  "      ""ur"": {";
  "        ""pluralRule-count-one"": ""i = 1 and v = 0 @integer 1"",";
  "        ""pluralRule-count-other"": "" @integer 0, 2~16, 100, 1000, 10000, 100000, 1000000, … @decimal 0.0~1.5, 10.0, 100.0, 1000.0, 10000.0, 100000.0, 1000000.0, …""";
  "      },";
  "      ""uz"": {";
  "        ""pluralRule-count-one"": ""n = 1 @integer 1 @decimal 1.0, 1.00, 1.000, 1.0000"",";
  "        ""pluralRule-count-other"": "" @integer 0, 2~16, 100, 1000, 10000, 100000, 1000000, … @decimal 0.0~0.9, 1.1~1.6, 10.0, 100.0, 1000.0, 10000.0, 100000.0, 1000000.0, …""";
  "      },";
  "      ""ve"": {";
  "        ""pluralRule-count-one"": ""n = 1 @integer 1 @decimal 1.0, 1.00, 1.000, 1.0000"",";
  "        ""pluralRule-count-other"": "" @integer 0, 2~16, 100, 1000, 10000, 100000, 1000000, … @decimal 0.0~0.9, 1.1~1.6, 10.0, 100.0, 1000.0, 10000.0, 100000.0, 1000000.0, …""";
  "      },";
  "      ""vi"": {";
  "        ""pluralRule-count-other"": "" @integer 0~15, 100, 1000, 10000, 100000, 1000000, … @decimal 0.0~1.5, 10.0, 100.0, 1000.0, 10000.0, 100000.0, 1000000.0, …""";
  "      },";
  "      ""vo"": {";
  "        ""pluralRule-count-one"": ""n = 1 @integer 1 @decimal 1.0, 1.00, 1.000, 1.0000"",";
  "        ""pluralRule-count-other"": "" @integer 0, 2~16, 100, 1000, 10000, 100000, 1000000, … @decimal 0.0~0.9, 1.1~1.6, 10.0, 100.0, 1000.0, 10000.0, 100000.0, 1000000.0, …""";
  "      },";
  "      ""vun"": {";
  "        ""pluralRule-count-one"": ""n = 1 @integer 1 @decimal 1.0, 1.00, 1.000, 1.0000"",";
  "        ""pluralRule-count-other"": "" @integer 0, 2~16, 100, 1000, 10000, 100000, 1000000, … @decimal 0.0~0.9, 1.1~1.6, 10.0, 100.0, 1000.0, 10000.0, 100000.0, 1000000.0, …""";
  "      },";
  "      ""wa"": {";
  "        ""pluralRule-count-one"": ""n = 0..1 @integer 0, 1 @decimal 0.0, 1.0, 0.00, 1.00, 0.000, 1.000, 0.0000, 1.0000"",";
  "        ""pluralRule-count-other"": "" @integer 2~17, 100, 1000, 10000, 100000, 1000000, … @decimal 0.1~0.9, 1.1~1.7, 10.0, 100.0, 1000.0, 10000.0, 100000.0, 1000000.0, …""";
  "      },";
  "      ""wae"": {";
  "        ""pluralRule-count-one"": ""n = 1 @integer 1 @decimal 1.0, 1.00, 1.000, 1.0000"",";
  "        ""pluralRule-count-other"": "" @integer 0, 2~16, 100, 1000, 10000, 100000, 1000000, … @decimal 0.0~0.9, 1.1~1.6, 10.0, 100.0, 1000.0, 10000.0, 100000.0, 1000000.0, …""";
  "      },";
  "      ""wo"": {";
  "        ""pluralRule-count-other"": "" @integer 0~15, 100, 1000, 10000, 100000, 1000000, … @decimal 0.0~1.5, 10.0, 100.0, 1000.0, 10000.0, 100000.0, 1000000.0, …""";
  "      },";
  "      ""xh"": {";
  "        ""pluralRule-count-one"": ""n = 1 @integer 1 @decimal 1.0, 1.00, 1.000, 1.0000"",";
  "        ""pluralRule-count-other"": "" @integer 0, 2~16, 100, 1000, 10000, 100000, 1000000, … @decimal 0.0~0.9, 1.1~1.6, 10.0, 100.0, 1000.0, 10000.0, 100000.0, 1000000.0, …""";
  "      },";
  "      ""xog"": {";
  "        ""pluralRule-count-one"": ""n = 1 @integer 1 @decimal 1.0, 1.00, 1.000, 1.0000"",";
  "        ""pluralRule-count-other"": "" @integer 0, 2~16, 100, 1000, 10000, 100000, 1000000, … @decimal 0.0~0.9, 1.1~1.6, 10.0, 100.0, 1000.0, 10000.0, 100000.0, 1000000.0, …""";
  "      },";
  "      ""yi"": {";
  "        ""pluralRule-count-one"": ""i = 1 and v = 0 @integer 1"",";
  "        ""pluralRule-count-other"": "" @integer 0, 2~16, 100, 1000, 10000, 100000, 1000000, … @decimal 0.0~1.5, 10.0, 100.0, 1000.0, 10000.0, 100000.0, 1000000.0, …""";
  "      },";
  "      ""yo"": {";
  "        ""pluralRule-count-other"": "" @integer 0~15, 100, 1000, 10000, 100000, 1000000, … @decimal 0.0~1.5, 10.0, 100.0, 1000.0, 10000.0, 100000.0, 1000000.0, …""";
  "      },";
  "      ""yue"": {";
  "        ""pluralRule-count-other"": "" @integer 0~15, 100, 1000, 10000, 100000, 1000000, … @decimal 0.0~1.5, 10.0, 100.0, 1000.0, 10000.0, 100000.0, 1000000.0, …""";
  "      },";
  "      ""zh"": {";
  "        ""pluralRule-count-other"": "" @integer 0~15, 100, 1000, 10000, 100000, 1000000, … @decimal 0.0~1.5, 10.0, 100.0, 1000.0, 10000.0, 100000.0, 1000000.0, …""";
  "      },";
  "      ""zu"": {";
  "        ""pluralRule-count-one"": ""i = 0 or n = 1 @integer 0, 1 @decimal 0.0~1.0, 0.00~0.04"",";
  "        ""pluralRule-count-other"": "" @integer 2~17, 100, 1000, 10000, 100000, 1000000, … @decimal 1.1~2.6, 10.0, 100.0, 1000.0, 10000.0, 100000.0, 1000000.0, …""";
  "      }";
  "    }";
  "  }";
  "}";
  ""
]%string.

Definition cardinals37_json : bytes := join_lines (List.map bs cardinals37_json_lines).
