(** * Property C127: what a generated file tells about its input *)
From Verif Require Import Base Ast LangId GenPr GenRs Json MakeRules Spec Cldr GenMeaning CodeSpec FileSpec MakeProps MakeMore SameSpec SameAny SameBack Properties6.
From Verif Require Properties3.
Open Scope N_scope.

(** two inputs with the same file have the same version and the same tables, and every locale
    of one is in the other, with the same categories in the same order and the same code *)
Theorem C127_read_back {ptr : ptr_width} srt srt' jsons jsons' rs rs' out : sorts srt -> sorts srt' ->
  inputs_are jsons rs -> inputs_are jsons' rs' -> generate_rs srt jsons = Ok out -> generate_rs srt' jsons' = Ok out ->
  (forall r r' z z', In r rs -> In r' rs' -> version_number (version_of r) z -> version_number (version_of r') z' -> z = z') /\
  forall t r d, In r rs -> data_of t r = Some d -> exists r' d', In r' rs' /\ data_of t r' = Some d' /\
    List.length (locales d) = List.length (locales d') /\
    forall key id cs, input_locale d key id cs -> exists key' id' cs', input_locale d' key' id' cs' /\
      drop_variants id = drop_variants id' /\ Forall2 same_rule (List.filter not_other cs) (List.filter not_other cs').
Proof. exact (C127_lemma srt srt' jsons jsons' rs rs' out). Qed.
Print Assumptions C127_read_back.
(** such rules mean the same in CLDR where the code shows all of them (C110 has two
    inputs with one file and two meanings) *)
Theorem C127_meaning cs cs' : Forall2 same_rule (List.filter not_other cs) (List.filter not_other cs') ->
  (clear_rules shows cs -> clear_rules shows cs' -> forall d, proper d -> forall c, cldr_select cs d c <-> cldr_select cs' d c) /\
  (clear_rules shows_on_integers cs -> clear_rules shows_on_integers cs' ->
   forall x c, cldr_select cs (mkDecimal x []) c <-> cldr_select cs' (mkDecimal x []) c).
Proof. exact (C127_meaning_lemma cs cs'). Qed.
Print Assumptions C127_meaning.

(** another order, another spelling of the version, of the keys and of the rules *)
Definition respelt : bytes := resource "+037" "cardinal"
  """lag"":{""pluralRule-count-zero"":""n is 0"",""pluralRule-count-one"":""i = 0,1 and n is not 0""},""SV-valencia"":{""pluralRule-count-one"":""i in 1 and v = 0""}".
Definition other_version : bytes := resource "38" "cardinal"
  """lag"":{""pluralRule-count-zero"":""n is 0"",""pluralRule-count-one"":""i = 0,1 and n is not 0""},""sv"":{""pluralRule-count-one"":""i in 1 and v = 0""}".
Definition other_rule : bytes := resource "37" "cardinal"
  """lag"":{""pluralRule-count-zero"":""n is 0"",""pluralRule-count-one"":""i = 0,1 and n is not 0""},""sv"":{""pluralRule-count-one"":""i in 2 and v = 0""}".
Definition one_more : bytes := resource "37" "cardinal"
  """lag"":{""pluralRule-count-zero"":""n is 0"",""pluralRule-count-one"":""i = 0,1 and n is not 0""},""sv"":{""pluralRule-count-one"":""i in 1 and v = 0""},""de"":{}".
Definition file_of (j : bytes) : res bytes := generate_rs insertion_sort [j].
Example C127_case :
  file_of small_cardinal = file_of respelt /\ (exists out, file_of respelt = Ok out) /\
  inputs_are [small_cardinal] (reads [small_cardinal]) /\ inputs_are [respelt] (reads [respelt]) /\
  small_cardinal <> respelt /\ reads [small_cardinal] <> reads [respelt] /\
  Forall (fun j => file_of j <> file_of respelt /\ exists out, file_of j = Ok out) [other_version; other_rule; one_more] /\
  sorts insertion_sort /\
  clear_rules shows [(ONE, Properties3.cond_of "i = 1 and v = 0"); (OTHER, [])] /\
  clear_rules shows [(ONE, Properties3.cond_of "i in 1 and v is 0")] /\
  Forall2 same_rule [(ONE, Properties3.cond_of "i = 1 and v = 0")] [(ONE, Properties3.cond_of "i in 1 and v is 0")].
Proof.
  split; [vm_compute; reflexivity|]. split; [destruct (file_of respelt) as [out| |] eqn:G; [eauto|vm_compute in G; discriminate|vm_compute in G; discriminate]|].
  split; [apply reads_ok; vm_compute; reflexivity|]. split; [apply reads_ok; vm_compute; reflexivity|].
  split; [vm_compute; discriminate|]. split; [vm_compute; discriminate|].
  split.
  { do 3 (constructor; [split; [vm_compute; discriminate|
      match goal with |- exists out, ?f = Ok out => destruct f as [out| |] eqn:G; [eauto|vm_compute in G; discriminate|vm_compute in G; discriminate] end]|]).
    constructor. }
  split; [exact insertion_sorts|].
  split; [|split].
  1-2: intros c co J N; cbn [In] in J; repeat (destruct J as [J|J]; [injection J as <- <-; try congruence|]); try easy;
    split; [split; [vm_compute; discriminate|repeat constructor; vm_compute; discriminate]|];
    repeat constructor; vm_compute; try discriminate; try (now right); try (intuition discriminate); eauto.
  constructor; [|constructor]. split; [reflexivity|]. split; [vm_compute; reflexivity|]. intros _ _. vm_compute. reflexivity.
Qed.
