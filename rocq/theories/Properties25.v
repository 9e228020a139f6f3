(** * Property C110: rules that generate the same code *)
From Verif Require Import Base Operands Ast Tokens CldrParser LangId GenPr GenRs Json MakeRules Spec CodeSpec FileSpec MakeProps MakeMore Truncate Faithful SameSpec SameCode SameFile GenMeaning SameAny.
From Verif Require Properties3 Properties6 Properties20.
From Verif Require Import Properties23.
Open Scope N_scope.

(** C110 is false: "n % 10 = 2..4" and "i = 2..4" give the same file, and differ on 12 *)
Theorem C110_meaning_shows_refuted :
  exists out c c', generate_rs insertion_sort [with_one "n % 10 = 2..4"] = Ok out /\
    generate_rs insertion_sort [with_one "i = 2..4"] = Ok out /\
    reading (bs "n % 10 = 2..4") c /\ reading (bs "i = 2..4") c' /\ gen_pr c = gen_pr c' /\
    uts_condition c (mkDecimal 12 []) = true /\ uts_condition c' (mkDecimal 12 []) = false.
Proof.
  destruct (generate_rs insertion_sort [with_one "n % 10 = 2..4"]) as [out| |] eqn:G; [|vm_compute in G; discriminate|vm_compute in G; discriminate].
  exists out, (Properties3.cond_of "n % 10 = 2..4"), (Properties3.cond_of "i = 2..4"). split; [reflexivity|].
  split; [rewrite <- G; vm_compute; reflexivity|]. split; [apply reading_parses; vm_compute; reflexivity|].
  split; [apply reading_parses; vm_compute; reflexivity|]. do 2 (split; [vm_compute; reflexivity|]). vm_compute; reflexivity.
Qed.
Print Assumptions C110_meaning_shows_refuted.
(** exactly the conditions with the same parts give the same code *)
Theorem C110_same_code c c' : no_gaps c -> lacks_ranges c = false -> no_gaps c' -> lacks_ranges c' = false ->
  (gen_pr c = gen_pr c' <-> parts c = parts c').
Proof. exact (C110_lemma c c'). Qed.
Print Assumptions C110_same_code.
(** where C103 finds no deviation, and for [within] with one range and no lost operand,
    the same code has the same meaning: for numbers of any size *)
Theorem C110_meaning_shows_partial c c' : no_gaps c -> no_gaps c' -> gen_pr c = gen_pr c' ->
  (all_clear shows c -> all_clear shows c' -> forall d, proper d -> uts_condition c d = uts_condition c' d) /\
  (all_clear shows_on_integers c -> all_clear shows_on_integers c' ->
   forall x, uts_condition c (mkDecimal x []) = uts_condition c' (mkDecimal x [])).
Proof. exact (C110_any_lemma c c'). Qed.
Print Assumptions C110_meaning_shows_partial.
(** inputs whose rules have the same parts give the same file *)
Theorem C110_files {ptr : ptr_width} srt jsons jsons' rs rs' : uniform srt -> inputs_are jsons rs -> inputs_are jsons' rs' ->
  Forall2 same_resource rs rs' -> generate_rs srt jsons = generate_rs srt jsons'.
Proof. exact (C110_files_lemma srt jsons jsons' rs rs'). Qed.
Print Assumptions C110_files.

Definition same (s s' : string) : Prop :=
  let c := Properties3.cond_of s in let c' := Properties3.cond_of s' in
  no_gaps c /\ no_gaps c' /\ lacks_ranges c = false /\ lacks_ranges c' = false /\ parts c = parts c'.
Example C110_case :
  same "n is 1" "n = 1" /\ same "n in 1" "n = 1" /\ same "n not in 1..3" "n != 1..3" /\ same "n is not 2" "n != 2" /\
  same "i = 1,3..5,2" "i = 1,2,3..5" /\ same "n % 10 = 2..4" "i = 2..4" /\
  same "n = 3..5" "i = 3..5 and f = 0" /\ same "n != 1,2 or v = 0" "n != 1 and n != 2 or v = 0" /\
  same "f % 10 within 2..4,6..8" "n % 10 within 2..4" /\
  parts (Properties3.cond_of "i = 1 or i = 2") <> parts (Properties3.cond_of "i = 1,2") /\
  gen_pr (Properties3.cond_of "i = 1 or i = 2") <> gen_pr (Properties3.cond_of "i = 1,2") /\
  Forall2 same_resource (Properties6.reads [with_one "n % 10 = 2..4"]) (Properties6.reads [with_one "i = 2..4"]) /\
  all_clear shows (Properties3.cond_of "n = 3..5 and n not within 7..9") /\ all_clear shows (Properties3.cond_of "i = 3..5 and f = 0 and n not within 7..9") /\
  same "n = 3..5 and n not within 7..9" "i = 3..5 and f = 0 and n not within 7..9" /\
  all_clear shows_on_integers (Properties3.cond_of "n % 10 within 2..4") /\ all_clear shows_on_integers (Properties3.cond_of "i % 10 within 2..4") /\
  same "n % 10 within 2..4" "i % 10 within 2..4" /\ ~ all_clear shows (Properties3.cond_of "n % 10 within 2..4") /\
  uts_condition (Properties3.cond_of "n % 10 within 2..4") (mkDecimal 4 [5]) <> uts_condition (Properties3.cond_of "i % 10 within 2..4") (mkDecimal 4 [5]).
Proof.
  Ltac same_tac := split; [split; [vm_compute; discriminate|repeat constructor; vm_compute; discriminate]|];
    split; [split; [vm_compute; discriminate|repeat constructor; vm_compute; discriminate]|];
    split; [vm_compute; reflexivity|]; split; [vm_compute; reflexivity|]; vm_compute; reflexivity.
  do 9 (split; [same_tac|]). split; [vm_compute; discriminate|]. split; [vm_compute; discriminate|].
  split.
  { constructor; [|constructor]. split; [reflexivity|]. intros [|]; [|exact Logic.I].
    constructor; [|constructor]. split; [reflexivity|]. right. constructor; [|constructor]. split; [reflexivity|].
    right. exists (Properties3.cond_of "n % 10 = 2..4"), (Properties3.cond_of "i = 2..4").
    split; [apply reading_parses; vm_compute; reflexivity|]. split; [apply reading_parses; vm_compute; reflexivity|]. same_tac. }
  Ltac clear_tac := repeat constructor; vm_compute; try discriminate; try (now right); try (intuition discriminate); eauto.
  split; [clear_tac|]. split; [clear_tac|]. split; [same_tac|].
  Ltac within_tac := constructor; [constructor; [split; [split; [eexists; vm_compute; reflexivity|vm_compute; auto]|vm_compute; discriminate]|constructor]|constructor].
  split; [within_tac|]. split; [within_tac|]. split; [same_tac|].
  split; [|vm_compute; discriminate].
  intro A. apply Forall_inv, Forall_inv in A. destruct A as [[_ [K|K]] _]; vm_compute in K; discriminate K.
Qed.
