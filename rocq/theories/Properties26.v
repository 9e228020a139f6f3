(** * Property C111: resources that are written are read back *)
From Verif Require Import Base LangId GenRs Json JsonSpec JsonDe JsonSer JsonBack MakeRules FileSpec.
From Verif Require Properties6.
Open Scope N_scope.

(** every resource in memory; its maps are [BTreeMap]s *)
Theorem C111_read_back r : ordered r ->
  (exists j, jtext j (ser_resource r)) /\ parse_plurals_resource_from_string (ser_resource r) = Some r.
Proof.
  intro O. pose proof (C111_lemma r O) as H. split; [destruct H as (j & T & _); now exists j|now apply resource_text_iff].
Qed.
Print Assumptions C111_read_back.
(** every text that is accepted, and the text written for what was read *)
Theorem C111_rewritten s r : parse_plurals_resource_from_string s = Some r ->
  ordered r /\ parse_plurals_resource_from_string (ser_resource r) = Some r /\
  forall s' r', parse_plurals_resource_from_string s' = Some r' -> (ser_resource r = ser_resource r' <-> r = r').
Proof.
  intro P. apply resource_text_iff in P. pose proof (read_ordered s r P) as O. split; [exact O|].
  pose proof (C111_lemma r O) as R. apply resource_text_iff in R. split; [exact R|]. intros s' r' P'. split; [|now intros ->].
  intro E. apply resource_text_iff in P'. pose proof (C111_lemma r' (read_ordered s' r' P')) as R'. apply resource_text_iff in R'. congruence.
Qed.
Print Assumptions C111_rewritten.
(** and generating from it gives the same file *)
Theorem C111_same_file {ptr : ptr_width} srt jsons rs : inputs_are jsons rs ->
  generate_rs srt (List.map ser_resource rs) = generate_rs srt jsons.
Proof. exact (C111_files_lemma srt jsons rs). Qed.
Print Assumptions C111_same_file.
(** keys out of order and repeated, escapes, white space, an unknown field *)
Example C111_case :
  let s := bs "{ ""other"" : [1], ""supplemental"" : {""plurals-type-ordinal"":{""sv"":{""z"":""A\t\u001F\""\/é"",""b"":"""",""z"":""last""},""af"":{}}, ""version"":{""_cldrVersion"":""37"",""_unicodeVersion"":""a\\b\u007f\n""}} }" in
  let r := match parse_plurals_resource_from_string s with Some r => r | None => mkSupplemental (mkVersion None [] []) None None end in
  parse_plurals_resource_from_string s = Some r /\ ordered r /\
  ser_resource r = bs "{""supplemental"":{""version"":{""_number"":null,""_unicodeVersion"":""a\\b" ++ 127 :: bs "\n"",""_cldrVersion"":""37""},""plurals-type-cardinal"":null,""plurals-type-ordinal"":{""af"":{},""sv"":{""b"":"""",""z"":""last""}}}}" /\
  ser_string [31; 8; 34; 128; 47; 0] = bs """\u001f\b\""" ++ [128] ++ bs "/\u0000""".
Proof.
  cbv zeta. split; [vm_compute; reflexivity|]. split; [|split; vm_compute; reflexivity].
  split; intros m E; vm_compute in E; [discriminate|]. injection E as <-. split; [vm_compute; repeat constructor|].
  intros k v [E|[E|[]]]; injection E as <- <-; vm_compute; repeat constructor.
Qed.
