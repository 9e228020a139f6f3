(** * Property C112: what a failed run of the generator reports

    [reported jsons why] is in FaultSpec.v: the first fault of the input texts, and
    the message that belongs to it. *)
From Coq Require Import Sorting.Permutation.
From Verif Require Import Base Ast LangId GenRs Json JsonSpec JsonDe LangSpec LangGram FileSpec MakeRules MakeMore FaultSpec FaultProps.
From Verif Require Properties6.
Open Scope N_scope.

(** C112 *)
Theorem C112_first_fault {ptr : ptr_width} srt jsons why : sorts srt ->
  generate_rs srt jsons = Panic why -> reported jsons why.
Proof. exact (C112_lemma srt jsons why). Qed.
Print Assumptions C112_first_fault.
Definition wrongs : list bytes := [
  Properties6.resource "37" "ordinal" """sv-"":{},""root"":{},""zu"":{""pluralRule-count"":""""}";
  Properties6.resource "37" "ordinal" """zu"":{""a-b-one"":""n = 1"",""a-c"":""""},""af"":{""x-y-one"":""n = 1"",""x-y-two"":""@ n"",""x-y-zzz"":""N = 1""}";
  Properties6.resource "37" "ordinal" """zu"":{""a-b-one"":""n within 1""},""af"":{""x-y-other"":""n within 1""}";
  Properties6.resource "36" "ordinal" """sv-"":{}";
  Properties6.resource "37" "cardinal" "";
  Properties6.resource "37" "ordinal" """zu"":{""a-b-zero"":""";
  Properties6.small_ordinal].
Example C112_case :
  List.map (fun j => generate_rs insertion_sort [Properties6.small_cardinal; j; bs "?"]) wrongs =
  [Panic "Parsing sv- failed"; Panic "Parsing of a condition succeeded"; Panic "index out of bounds";
   Panic "All input resources must use the same CLDR version!"; Panic "Cannot provide two inputs with the same data!";
   Panic unwrap_message; Panic unwrap_message].
Proof. vm_compute. reflexivity. Qed.

(** With one key for each identifier the message is determined by the input. *)
Theorem C112_exactly {ptr : ptr_width} srt jsons why : sorts srt ->
  (forall j r, In j jsons -> resource_text j r -> one_key_each r) ->
  (generate_rs srt jsons = Panic why <-> reported jsons why).
Proof. exact (C112_exact_lemma srt jsons why). Qed.
Print Assumptions C112_exactly.
Example C112_exactly_case :
  let j := Properties6.resource "37" "ordinal" """zu"":{""a-b-one"":""n = 1"",""a-b-two"":""N = 1""}" in
  (forall r, resource_text j r -> one_key_each r) /\ reported [j] "Parsing of a condition succeeded".
Proof.
  cbv zeta. set (j := Properties6.resource _ _ _).
  assert (E : parse_plurals_resource_from_string j = Some (mkSupplemental (mkVersion None (bs "13.0.0") (bs "37")) None
    (Some [(bs "zu", [(bs "a-b-one", bs "n = 1"); (bs "a-b-two", bs "N = 1")])]))) by (vm_compute; reflexivity).
  split.
  - intros r R. apply resource_text_iff in R. rewrite E in R. injection R as <-.
    intros [|] d key key' id rules rules' D (I & _) (I' & _); cbn in D; [discriminate|]. injection D as <-.
    destruct I as [I|[]], I' as [I'|[]]. congruence.
  - apply (C112_first_fault insertion_sort); [exact insertion_sorts|]. vm_compute. reflexivity.
Qed.

(** Without, it can depend on the sorting function. *)
Definition reversed_sort : sorter := fun V l => insertion_sort V (rev l).
Theorem C112_ties : sorts insertion_sort /\ sorts reversed_sort /\
  exists jsons why why', generate_rs insertion_sort jsons = Panic why /\ generate_rs reversed_sort jsons = Panic why' /\ why <> why'.
Proof.
  split; [exact insertion_sorts|]. split.
  - intros V l. destruct (insertion_sorts V (rev l)) as [P S]. split; [|exact S].
    exact (Permutation_trans (Permutation_rev l) P).
  - exists [Properties6.resource "37" "ordinal" """zu"":{""a-b-one"":""n within 1""},""ZU"":{""a-b-one"":""N = 1""}"].
    eexists. eexists. split; [vm_compute; reflexivity|]. split; [vm_compute; reflexivity|]. discriminate.
Qed.
Print Assumptions C112_ties.
