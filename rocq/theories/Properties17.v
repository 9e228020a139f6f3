(** * Properties C95, C96: machines with 32-bit and 64-bit pointers

    C95 is about the machine that runs make_pluralrules, C96 about the machine
    the generated code is compiled for. *)
From Verif Require Import Base F64 Ast CldrParser Operands LangId GenPr GenRs Json JsonSpec JsonDe MakeRules RustExpr PluralRules Tables Spec Grammar FileSpec MakeProps MakeMore
  CodeSpec TargetSpec Target HostWidth Fixtures.
From Verif Require Import TextCardinals37 TextOrdinals37 TextCardinals33 TextOrdinals33 TextWithin.
From Verif Require Properties3 Properties6.
Open Scope N_scope.

(** C95: the bounds on numbers and version are needed: the version 2147483648 makes a 32-bit machine panic, and of the rule
    "n = 1,4294967296" it keeps "n = 1" only *)
Theorem C95_bounds_needed :
  (exists jsons out, @generate_rs W64 insertion_sort jsons = Ok out /\ exists why, @generate_rs W32 insertion_sort jsons = Panic why) /\
  (exists jsons out out', @generate_rs W64 insertion_sort jsons = Ok out /\ @generate_rs W32 insertion_sort jsons = Ok out' /\ out <> out').
Proof.
  split.
  - exists [Properties6.resource "2147483648" "ordinal" ""]. eexists. split; [vm_compute; reflexivity|]. eexists. vm_compute. reflexivity.
  - exists [Properties6.resource "37" "ordinal" """sv"":{""pluralRule-count-one"":""n = 1,4294967296""}"]. eexists. eexists.
    split; [vm_compute; reflexivity|]. split; [vm_compute; reflexivity|]. discriminate.
Qed.
Print Assumptions C95_bounds_needed.
(** resources whose rule texts hold no number of 2^32 or more and whose version, if it is a number, fits in 32 bits *)
Theorem C95_same_output srt jsons : sorts srt ->
  (forall j r, In j jsons -> resource_text j r -> small_numbers r /\ small_version r) ->
  @generate_rs W32 srt jsons = @generate_rs W64 srt jsons.
Proof. exact (C95_lemma srt jsons). Qed.
Print Assumptions C95_same_output.
Theorem C95_shipped_files {ptr : ptr_width} srt jsons : sorts srt ->
  incl jsons [cardinals37_json; ordinals37_json; trim cardinals33_json; trim ordinals33_json; trim within_json] ->
  @generate_rs ptr srt jsons = @generate_rs W64 srt jsons.
Proof. exact (C95_any_lemma srt jsons). Qed.
Print Assumptions C95_shipped_files.
Example C95_case : let j := Properties6.resource "-2147483648" "ordinal" """sv"":{""pluralRule-count-one"":""n = 4294967295 or v = 3""}" in
  (forall r, resource_text j r -> small_numbers r /\ small_version r) /\ sorts insertion_sort /\
  exists out, @generate_rs W32 insertion_sort [j] = Ok out.
Proof.
  intro j. split; [|split; [exact insertion_sorts|eexists; vm_compute; reflexivity]].
  intros r R. apply resource_text_iff in R. vm_compute in R. injection R as <-. split.
  - intros t d key rules name text D I N J. destruct t; [discriminate|]. injection D as <-. destruct I as [E|[]]. injection E as <- <-.
    destruct J as [E|[]]. injection E as <- <-. intros a ds b E X. refine (PtrWidth.runs_below_any (2 ^ 32) _ 0 _ eq_refl a ds b E X). vm_compute. reflexivity.
  - intros z Z. apply isize_iff in Z. vm_compute in Z. injection Z as <-. split; [discriminate|reflexivity].
Qed.

(** C96: code that compiles for a 64-bit target may not compile for a 32-bit one: "v = 4294967296", and a version 4294967296 *)
Theorem C96_targets_differ :
  (exists c ts e, parse_plural_condition (bs "v = 4294967296") = Ok c /\ gen_pr c = Ok ts /\ read_bexpr ts = Some e /\
     compiles_on W64 e = true /\ compiles_on W32 e = false) /\
  (exists jsons out k, generate_rs insertion_sort jsons = Ok out /\ output_version out = Some k /\ version_fits W64 k = true /\ version_fits W32 k = false).
Proof.
  split.
  - eexists. eexists. eexists. split; [vm_compute; reflexivity|]. split; [vm_compute; reflexivity|]. split; [vm_compute; reflexivity|].
    split; vm_compute; reflexivity.
  - exists [Properties6.resource "4294967296" "ordinal" ""]. eexists. eexists. split; [vm_compute; reflexivity|]. split; [vm_compute; reflexivity|].
    split; vm_compute; reflexivity.
Qed.
Print Assumptions C96_targets_differ.
(** exactly when a condition, a function and the version compile; and the shipped file compiles for both *)
Theorem C96_condition target c ts e : gen_pr c = Ok ts -> read_bexpr ts = Some e -> compiles_on target e = code_fits_on target c.
Proof. exact (Target.C96_condition target c ts e). Qed.
Print Assumptions C96_condition.
Theorem C96_function {ptr : ptr_width} target srt jsons out rs t tbl id b :
  sorts srt -> generate_rs srt jsons = Ok out -> inputs_are jsons rs -> output_table t out = Some tbl -> In (id, b) tbl ->
  exists r d key id0 cs, In r rs /\ data_of t r = Some d /\ input_locale d key id0 cs /\ id = drop_variants id0 /\
    body_compiles_on target b = forallb (fun cc => code_fits_on target (snd cc)) (List.filter not_other cs).
Proof. exact (C96_table target srt jsons out rs t tbl id b). Qed.
Print Assumptions C96_function.
Theorem C96_version {ptr : ptr_width} srt jsons rs out : generate_rs srt jsons = Ok out -> inputs_are jsons rs ->
  exists z k, Forall (fun r => version_number (version_of r) z) rs /\ output_version out = Some k /\
    version_fits W64 k = true /\ (version_fits W32 k = true <-> (0 <= z < 2 ^ 32)%Z).
Proof. exact (C96_version_lemma srt jsons rs out). Qed.
Print Assumptions C96_version.
Theorem C96_shipped target : version_fits target CLDR_VERSION = true /\
  forall t id b, In (id, b) (prs t) -> body_compiles_on target b = true.
Proof. exact (C96_shipped_lemma target). Qed.
Print Assumptions C96_shipped.
(** a large number may be compared with [n] and [i], and with the remainder of [v] after [within], which is taken of [i] *)
Example C96_case :
  code_fits_on W32 (Properties3.cond_of "n = 4294967296 and i = 4294967296..5000000000 and v % 2 within 4294967296..4294967297") = true /\
  code_fits_on W32 (Properties3.cond_of "w = 1,2..4294967296") = false /\ code_fits_on W64 (Properties3.cond_of "w = 1,2..4294967296") = true /\
  code_fits_on W32 (Properties3.cond_of "v % 4294967296 = 1") = false.
Proof. repeat split; vm_compute; reflexivity. Qed.
