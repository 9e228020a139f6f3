(** * Properties C66-C70: the fixtures of the repository and main.rs *)
From Verif Require Import Base GenRs Json MakeRules FileSpec MakeProps MakeMore MakeFacts Shipped Fixtures Main MainProps.
From Verif Require HostWidth.
From Verif Require Import TextFix33 TextCardinals33 TextOrdinals33 TextWithin TextWithinRs.
From Verif Require Properties6.
Open Scope N_scope.

(** C66 *)
Theorem C66_fixtures_reproduced {ptr : ptr_width} srt : sorts srt ->
  generate_rs srt [trim cardinals33_json; trim ordinals33_json] = Ok (trim fixture33_rs) /\
  generate_rs srt [trim within_json] = Ok (trim within_rs).
Proof.
  intros S. split; (rewrite HostWidth.C95_any_lemma; [|exact S|]); [exact (fixture33 srt S)| |exact (fixture_within srt S)|].
  - intros j [E|[E|[]]]; subst j; [do 2 right; now left|do 3 right; now left].
  - intros j [E|[]]; subst j. do 4 right. now left.
Qed.
Print Assumptions C66_fixtures_reproduced.
Example C66_case : sorts insertion_sort /\ List.length (trim within_rs) = 1077%nat /\ trim (bs " a b
 ") = bs "a b".
Proof. split; [exact insertion_sorts|]. split; vm_compute; reflexivity. Qed.

(** ** A small world for the examples *)
Definition disk : files := fun p =>
  if bytes_eqb p (bs "c.json") then Some Properties6.small_cardinal
  else if bytes_eqb p (bs "o.json") then Some Properties6.small_ordinal
  else if bytes_eqb p (bs "bin") then Some [255]
  else if bytes_eqb p (bs "rules.rs") then Some (bs "precious")
  else None.
Definition calm : system := mkSystem (fun _ => true) (fun _ _ => None) None.
Definition full : system := mkSystem (fun _ => true) (fun _ _ => Some 3%nat) None.
Definition formatting : system := mkSystem (fun _ => true) (fun _ _ => None) (Some (fun p fs => set_file p (bs "pretty") fs)).
Definition both : list path := [bs "c.json"; bs "o.json"].

(** C67: nothing is written unless all inputs are read and the code is generated *)
Theorem C67_nothing_written_without_code {ptr : ptr_width} srt sys o fs :
  (forall code, ~ code_of srt fs (o_inputs o) code) ->
  (exists why, snd (main srt sys o fs) = Panic why) /\ unchanged fs (fst (main srt sys o fs)).
Proof. intros H. destruct (no_code srt sys o fs H) as (w & E). rewrite E. split; [now exists w|now intros p]. Qed.
Print Assumptions C67_nothing_written_without_code.
Example C67_case :
  (forall code, ~ code_of insertion_sort disk [bs "c.json"; bs "nowhere.json"] code) /\
  (forall code, ~ code_of insertion_sort disk [bs "bin"] code) /\
  (forall code, ~ code_of insertion_sort disk [bs "rules.rs"] code) /\
  snd (main insertion_sort calm (mkOptions [bs "c.json"; bs "nowhere.json"] (bs "rules.rs") true) disk) = Panic "file not found".
Proof.
  repeat apply conj; [intros code H; apply prepared_ok in H; vm_compute in H; discriminate H..|vm_compute; reflexivity].
Qed.

(** C68: a successful run with --ugly leaves exactly the generated code at the
    output path and no other file changed; without --ugly rustfmt is run, on that
    path, in that state, and nothing else happens *)
Theorem C68_success {ptr : ptr_width} srt sys o fs : snd (main srt sys o fs) = Ok tt ->
  exists code fs', code_of srt fs (o_inputs o) code /\
    fs' (o_output o) = Some code /\ unchanged_but (o_output o) fs fs' /\
    (o_ugly o = true -> fst (main srt sys o fs) = fs') /\
    (o_ugly o = false -> exists f, rustfmt sys = Some f /\ fst (main srt sys o fs) = f (o_output o) fs').
Proof.
  intros H. apply success_iff in H as (code & C & A & B & D). exists code, (set_file (o_output o) code fs).
  split; [exact C|]. split; [apply set_same|]. split; [apply set_other|]. rewrite (with_code _ _ _ _ _ C), A, B.
  split; intros U; rewrite U in *; [reflexivity|]. destruct (rustfmt sys) as [f|]; [|now destruct D]. now exists f.
Qed.
Print Assumptions C68_success.
Theorem C68_when {ptr : ptr_width} srt sys o fs : snd (main srt sys o fs) = Ok tt <->
  exists code, code_of srt fs (o_inputs o) code /\ can_create sys (o_output o) = true /\
    write_stops sys (o_output o) code = None /\ (o_ugly o = true \/ rustfmt sys <> None).
Proof. exact (success_iff srt sys o fs). Qed.
Print Assumptions C68_when.
Example C68_case : snd (main insertion_sort calm (mkOptions both (bs "c.json") true) disk) = Ok tt /\
  fst (main insertion_sort calm (mkOptions both (bs "c.json") true) disk) (bs "c.json")
    = Some (Properties6.output [Properties6.small_cardinal; Properties6.small_ordinal]) /\
  snd (main insertion_sort formatting (mkOptions both (bs "rules.rs") false) disk) = Ok tt /\
  fst (main insertion_sort formatting (mkOptions both (bs "rules.rs") false) disk) (bs "rules.rs") = Some (bs "pretty").
Proof. repeat apply conj; vm_compute; reflexivity. Qed.

(** C69: false as stated; the output is truncated before it is written *)
Theorem C69_failure_keeps_files_refuted :
  exists sys o fs, snd (main insertion_sort sys o fs) <> Ok tt /\ ~ unchanged fs (fst (main insertion_sort sys o fs)).
Proof.
  exists full, (mkOptions both (bs "rules.rs") true), disk. split; [vm_compute; discriminate|].
  intros U. specialize (U (bs "rules.rs")). vm_compute in U. discriminate U.
Qed.
Print Assumptions C69_failure_keeps_files_refuted.
(** What holds: every file but the output is kept; the output is kept too if it
    cannot be created or there is no code; after a failed write it holds a prefix
    of the code, and if rustfmt cannot be started, the whole code. *)
Theorem C69_failure_keeps_files_partial {ptr : ptr_width} srt sys o fs : snd (main srt sys o fs) <> Ok tt ->
  let fs' := fst (main srt sys o fs) in
  unchanged_but (o_output o) fs fs' /\
  (unchanged fs fs' \/
   exists code, code_of srt fs (o_inputs o) code /\ can_create sys (o_output o) = true /\
     ((exists k, write_stops sys (o_output o) code = Some k /\ fs' (o_output o) = Some (firstn k code)) \/
      (write_stops sys (o_output o) code = None /\ o_ugly o = false /\ rustfmt sys = None /\ fs' (o_output o) = Some code))).
Proof.
  intros H fs'. unfold fs'. destruct (code_dec srt fs (o_inputs o)) as [(code & C)|N].
  - rewrite (with_code _ _ _ _ _ C) in *. destruct (can_create sys (o_output o)) eqn:A; [|split; [now intros q _|left; now intros q]].
    destruct (write_stops sys (o_output o) code) as [k|] eqn:B; cbn [fst snd] in *.
    + split; [apply set_other|]. right. exists code. split; [exact C|]. split; [reflexivity|]. left. exists k. split; [exact B|apply set_same].
    + destruct (o_ugly o) eqn:U; [contradiction|]. destruct (rustfmt sys) eqn:F; [contradiction|]. cbn [fst snd] in *. split; [apply set_other|].
      right. exists code. split; [exact C|]. split; [reflexivity|]. right. split; [exact B|]. split; [reflexivity|]. split; [reflexivity|apply set_same].
  - destruct (no_code srt sys o fs N) as (w & E). rewrite E. split; [now intros q _|left; now intros q].
Qed.
Print Assumptions C69_failure_keeps_files_partial.
Example C69_case : snd (main insertion_sort calm (mkOptions both (bs "rules.rs") false) disk)
    = Panic "Failed to format the output using `rustfmt`" /\
  fst (main insertion_sort full (mkOptions both (bs "rules.rs") true) disk) (bs "rules.rs") = Some (bs "# !").
Proof. split; vm_compute; reflexivity. Qed.

(** C70: running the program again, with the output not among the inputs,
    reproduces the file *)
Theorem C70_rerun {ptr : ptr_width} srt sys o fs : o_ugly o = true -> ~ In (o_output o) (o_inputs o) ->
  snd (main srt sys o fs) = Ok tt ->
  let fs' := fst (main srt sys o fs) in
  snd (main srt sys o fs') = Ok tt /\ unchanged fs' (fst (main srt sys o fs')).
Proof.
  intros U N H fs'. pose proof H as K. apply success_iff in K as (code & C & A & B & D).
  assert (F : fs' = set_file (o_output o) code fs).
  { unfold fs'. rewrite (with_code _ _ _ _ _ C), A, B, U. reflexivity. }
  assert (C' : code_of srt fs' (o_inputs o) code).
  { rewrite F. destruct C as (js & R & G). exists js. split; [|exact G]. clear G H D B F fs'.
    induction R as [|p s ps js [X V] R IH]; constructor.
    - split; [|exact V]. rewrite set_other; [exact X|]. intros ->. apply N. now left.
    - apply IH. intros I. apply N. now right. }
  rewrite (with_code _ _ _ _ _ C'), A, B, U. cbn [fst snd]. split; [reflexivity|]. intros p. rewrite F.
  unfold set_file. now destruct (bytes_eqb p (o_output o)).
Qed.
Print Assumptions C70_rerun.
Example C70_case : ~ In (bs "rules.rs") both /\ snd (main insertion_sort calm (mkOptions both (bs "rules.rs") true) disk) = Ok tt.
Proof. split; [|vm_compute; reflexivity]. intros [E|[E|[]]]; vm_compute in E; discriminate E. Qed.
