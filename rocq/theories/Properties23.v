(** * Property C108: rule texts that the generator reads in part *)
From Verif Require Import Base Ast CldrParser LangId GenRs Json MakeRules Grammar ParserProps ParserExact FileSpec MakeProps MakeMore Truncate Properties6.
From Verif Require Import JsonSpec JsonDe WholeFiles.
Open Scope N_scope.

(** C108 is false: "i = 1 and e = 0" is generated like "i = 1" *)
Definition with_one (s : string) : bytes := resource "38" "cardinal" (String.append """sv"":{""pluralRule-count-one"":""" (String.append s """}")).
Theorem C108_nothing_dropped_refuted :
  exists jsons rs out r d rules text, generate_rs insertion_sort jsons = Ok out /\ inputs_are jsons rs /\ In r rs /\
    data_of CARDINAL r = Some d /\ In (bs "sv", rules) d /\ In (bs "pluralRule-count-one", text) rules /\
    ~ no_condition text /\ (forall ru, ~ g_rule true ru text) /\
    generate_rs insertion_sort [with_one "i = 1"] = Ok out.
Proof.
  destruct (generate_rs insertion_sort [with_one "i = 1"]) as [out| |] eqn:G; [|vm_compute in G; discriminate|vm_compute in G; discriminate].
  exists [with_one "i = 1 and e = 0"], (reads [with_one "i = 1 and e = 0"]), out. do 3 eexists. exists (bs "i = 1 and e = 0").
  split; [rewrite <- G; vm_compute; reflexivity|]. split; [apply reads_ok; vm_compute; reflexivity|].
  split; [left; reflexivity|]. split; [vm_compute; reflexivity|]. split; [left; reflexivity|]. split; [left; reflexivity|].
  assert (P : parse_plural_rule (bs "i = 1 and e = 0") = Err "Left string:  and e = 0") by (vm_compute; reflexivity).
  assert (N : ~ no_condition (bs "i = 1 and e = 0")).
  { intros H. apply condition_empty in H. vm_compute in H. discriminate. }
  split; [exact N|]. split; [|reflexivity].
  intros ru H. apply rule_complete in H. rewrite P in H. discriminate.
Qed.
Print Assumptions C108_nothing_dropped_refuted.
(** what is generated depends on the readings of the rule texts only *)
Theorem C108_readings_partial {ptr : ptr_width} srt jsons jsons' rs rs' : uniform srt -> inputs_are jsons rs -> inputs_are jsons' rs' ->
  Forall2 alike rs rs' -> generate_rs srt jsons = generate_rs srt jsons'.
Proof. exact (C108_alike srt jsons jsons' rs rs'). Qed.
Print Assumptions C108_readings_partial.
(** and everything from the first "and" or "or" that is not followed by an operand is not part of it *)
Theorem C108_dropped {ptr : ptr_width} c s w p rest : g_condition true c s -> w = bs "and" \/ w = bs "or" -> word w p -> foreign rest ->
  longest_condition (s ++ p ++ rest) c s (p ++ rest) /\ forall c', reading (s ++ p ++ rest) c' <-> reading s c'.
Proof. intros G W P F. split; [exact (proj1 (C108_tail c s w p rest G W P F))|exact (C108_tail_alike c s w p rest G W P F)]. Qed.
Print Assumptions C108_dropped.
(** a rule text of which nothing can be read makes the generator panic *)
Theorem C108_unreadable_panics {ptr : ptr_width} srt jsons rs r t d key rules name text : sorts srt -> inputs_are jsons rs -> In r rs ->
  data_of t r = Some d -> In (key, rules) d -> key <> bs "root" -> In (name, text) rules -> ~ no_condition text ->
  no_beginning text -> exists w, generate_rs srt jsons = Panic w.
Proof. exact (C108_panics srt jsons rs r t d key rules name text). Qed.
Print Assumptions C108_unreadable_panics.
(** the French rule of CLDR 38, and one with its parts exchanged *)
Example C108_case :
  let fr := "e = 0 and i != 0 and i % 1000000 = 0 and v = 0 or e != 0..5 @integer 1000000"%string in
  let swapped := "i != 0 and i % 1000000 = 0 and v = 0 and e = 0 or e != 0..5 @integer 1000000"%string in
  let short := "i != 0 and i % 1000000 = 0 and v = 0"%string in
  (exists w, generate_rs insertion_sort [with_one fr] = Panic w) /\ no_beginning (bs fr) /\ ~ no_condition (bs fr) /\
  generate_rs insertion_sort [with_one swapped] = generate_rs insertion_sort [with_one short] /\
  (exists out, generate_rs insertion_sort [with_one short] = Ok out) /\
  reading (bs swapped) (match parse_plural_condition (bs short) with Ok c => c | _ => [] end) /\
  Forall2 alike (reads [with_one swapped]) (reads [with_one short]).
Proof.
  cbv zeta. split; [eexists; vm_compute; reflexivity|]. split; [apply foreign_no_beginning; vm_compute; intuition discriminate|].
  split; [intros H; apply condition_empty in H; vm_compute in H; discriminate|].
  split; [vm_compute; reflexivity|]. split; [eexists; vm_compute; reflexivity|].
  split; [apply reading_parses; vm_compute; reflexivity|].
  constructor; [|constructor]. split; [reflexivity|]. intros [|]; [|exact Logic.I].
  constructor; [|constructor]. split; [reflexivity|]. right. constructor; [|constructor]. split; [reflexivity|].
  intros c. rewrite <- !reading_parses. match goal with |- ?a = _ <-> ?b = _ => assert (E : a = b) by (vm_compute; reflexivity); now rewrite E end.
Qed.

(** Nothing is dropped from the CLDR files of the repository (33 and 37); of the
    fixture cldr_pluralrules_within_test.json, samples with a syntax of its own are. *)
Theorem C108_cldr_files j r t d key rules name text : In j cldr_files -> resource_text j r -> data_of t r = Some d ->
  In (key, rules) d -> In (name, text) rules -> no_condition text \/ exists ru, ru_condition ru <> [] /\ g_rule true ru text.
Proof. exact (C108_whole j r t d key rules name text). Qed.
Print Assumptions C108_cldr_files.
Example C108_files_case : List.length cldr_files = 4%nat /\
  List.map (fun j => match parse_plurals_resource_from_string j with Some r =>
    List.length (flat_map (fun kv => snd kv) (flat_map (fun t => match data_of t r with Some d => d | None => [] end) [CARDINAL; ORDINAL]))
    | None => 0%nat end) cldr_files = [448; 156; 466; 167]%nat.
Proof. split; [reflexivity|]. vm_compute. reflexivity. Qed.
