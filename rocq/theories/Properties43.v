(** * Property C128: exactly when two inputs give the same file *)
From Verif Require Import Base Ast LangId GenPr GenRs Json MakeRules Spec CodeSpec FileSpec MakeProps MakeMore SameSpec SameBack SameIff Properties6 Properties42.
From Verif Require Properties27.
Open Scope N_scope.

Theorem C128_same_file {ptr : ptr_width} srt srt' jsons jsons' rs rs' out out' : sorts srt -> sorts srt' ->
  inputs_are jsons rs -> inputs_are jsons' rs' -> generate_rs srt jsons = Ok out -> generate_rs srt' jsons' = Ok out' ->
  (forall r t d, In r rs -> data_of t r = Some d -> keys_differ d) ->
  (out = out' <-> versions_same rs rs' /\ tables_in rs rs' /\ tables_in rs' rs).
Proof. exact (C128_lemma srt srt' jsons jsons' rs rs' out out'). Qed.
Print Assumptions C128_same_file.
(** without empty lists the rules are compared by what SameSpec.v says of them *)
Theorem C128_rules c co c' co' : no_gaps co -> lacks_ranges co = false -> no_gaps co' -> lacks_ranges co' = false ->
  (same_rule (c, co) (c', co') <-> c = c' /\ parts co = parts co').
Proof. exact (same_rule_parts c co c' co'). Qed.
Print Assumptions C128_rules.
(** two keys for one locale: the file then depends on how the sort leaves equal keys *)
Definition two_keys : bytes := resource "37" "cardinal" """sv"":{""pluralRule-count-one"":""n = 1""},""SV"":{""pluralRule-count-one"":""n = 2""}".
Theorem C128_keys_needed : exists rs out out', inputs_are [two_keys] rs /\
  generate_rs insertion_sort [two_keys] = Ok out /\ generate_rs Properties27.reversed_sort [two_keys] = Ok out' /\
  out <> out' /\ versions_same rs rs /\ tables_in rs rs.
Proof.
  destruct (generate_rs insertion_sort [two_keys]) as [out| |] eqn:G; [|vm_compute in G; discriminate|vm_compute in G; discriminate].
  destruct (generate_rs Properties27.reversed_sort [two_keys]) as [out'| |] eqn:G'; [|vm_compute in G'; discriminate|vm_compute in G'; discriminate].
  assert (R : inputs_are [two_keys] (reads [two_keys])) by (apply reads_ok; vm_compute; reflexivity).
  exists (reads [two_keys]), out, out'. split; [exact R|]. split; [reflexivity|]. split; [reflexivity|]. split.
  - intros E. rewrite <- E, <- G in G'. vm_compute in G'. discriminate.
  - destruct (C127_read_back insertion_sort insertion_sort [two_keys] [two_keys] _ _ out insertion_sorts insertion_sorts R R G G) as [V T].
    split; [exact V|exact T].
Qed.
Print Assumptions C128_keys_needed.

Lemma small_differ r t d : In r (reads [small_cardinal]) -> data_of t r = Some d -> keys_differ d.
Proof.
  intros J E. vm_compute in J. destruct J as [<-|[]]. destruct t; [|vm_compute in E; discriminate].
  assert (K : locales d = [bs "lag"; bs "sv"]) by (vm_compute in E; injection E as <-; vm_compute; reflexivity).
  intros ids F. rewrite K in F. inversion F as [|? a ? ? A F1]; subst. inversion F1 as [|? b ? ? B F2]; subst. inversion F2; subst.
  vm_compute in A, B. injection A as <-. injection B as <-. cbn [List.map]. constructor; [|constructor; [easy|constructor]].
  intros [H|[]]. vm_compute in H. discriminate.
Qed.
Example C128_case : exists out, file_of small_cardinal = Ok out /\ file_of respelt = Ok out /\
  (forall r t d, In r (reads [small_cardinal]) -> data_of t r = Some d -> keys_differ d) /\
  versions_same (reads [small_cardinal]) (reads [respelt]) /\ tables_in (reads [small_cardinal]) (reads [respelt]) /\
  ~ versions_same (reads [small_cardinal]) (reads [other_version]) /\
  ~ (tables_in (reads [small_cardinal]) (reads [other_rule]) /\ tables_in (reads [other_rule]) (reads [small_cardinal])).
Proof.
  destruct C127_case as (E & (out & G) & R & R' & _ & _ & O & S & _). exists out.
  split; [congruence|]. split; [exact G|]. split; [exact small_differ|].
  assert (G1 : generate_rs insertion_sort [small_cardinal] = Ok out) by (unfold file_of in *; congruence).
  assert (X : forall j o, all_read [j] = true -> file_of j = Ok o ->
    (out = o <-> versions_same (reads [small_cardinal]) (reads [j]) /\ tables_in (reads [small_cardinal]) (reads [j]) /\ tables_in (reads [j]) (reads [small_cardinal]))).
  { intros j o A J. apply (C128_same_file insertion_sort insertion_sort [small_cardinal] [j]); auto; [now apply reads_ok|exact small_differ]. }
  destruct (proj1 (X respelt out ltac:(vm_compute; reflexivity) G) eq_refl) as (V & T & _). split; [exact V|]. split; [exact T|]. split.
  - intros H. assert (Z : (37 = 38)%Z); [|discriminate]. apply (H _ _ 37%Z 38%Z (or_introl eq_refl) (or_introl eq_refl)).
    + apply isize_iff. vm_compute. reflexivity.
    + apply isize_iff. vm_compute. reflexivity.
  - intros H. inversion O as [|? ? _ O1]; subst. inversion O1 as [|? ? (N & o & Q) _]; subst. apply N. rewrite Q, G. f_equal. symmetry.
    apply (X other_rule o ltac:(vm_compute; reflexivity) Q). split; [|exact H].
    intros r r' z z' J J' A B. vm_compute in J, J'. destruct J as [<-|[]]. destruct J' as [<-|[]]. apply isize_iff in A, B. vm_compute in A, B. congruence.
Qed.
