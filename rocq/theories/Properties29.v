(** * Property C114: rule texts are put together with "or" and "and" *)
From Verif Require Import Base Ast CldrParser Spec Grammar Compose.
Open Scope N_scope.

(** C114 *)
Theorem C114_or {ptr : ptr_width} s1 r1 p s2 r2 : parse_plural_rule s1 = Ok r1 -> parse_plural_rule s2 = Ok r2 ->
  ru_condition r1 <> [] -> ru_condition r2 <> [] -> lists_nonempty (ru_condition r1) -> lists_nonempty (ru_condition r2) ->
  ru_samples r1 = None -> word (bs "or") p ->
  parse_plural_rule (s1 ++ p ++ s2) = Ok (mkRule (ru_condition r1 ++ ru_condition r2) (ru_samples r2)) /\
  forall d, uts_condition (ru_condition r1 ++ ru_condition r2) d = uts_condition (ru_condition r1) d || uts_condition (ru_condition r2) d.
Proof.
  intros P1 P2 N1 N2 L1 L2 Z W. split; [exact (C114_or_lemma s1 r1 p s2 r2 P1 P2 N1 N2 L1 L2 Z W)|].
  exact (C114_or_meaning (ru_condition r1) (ru_condition r2)).
Qed.
Print Assumptions C114_or.
Theorem C114_and {ptr : ptr_width} s1 r1 p s2 r2 : parse_plural_rule s1 = Ok r1 -> parse_plural_rule s2 = Ok r2 ->
  ru_condition r1 <> [] -> ru_condition r2 <> [] -> lists_nonempty (ru_condition r1) -> lists_nonempty (ru_condition r2) ->
  ru_samples r1 = None -> word (bs "and") p ->
  exists c a b d, ru_condition r1 = c ++ [a] /\ ru_condition r2 = b :: d /\
    parse_plural_rule (s1 ++ p ++ s2) = Ok (mkRule (c ++ [a ++ b] ++ d) (ru_samples r2)) /\
    forall x, uts_and (a ++ b) x = uts_and a x && uts_and b x.
Proof. exact (C114_and_theorem s1 r1 p s2 r2). Qed.
Print Assumptions C114_and.
Definition rule_of (s : string) : rule := match parse_plural_rule (bs s) with Ok r => r | _ => mkRule [] None end.
Example C114_case : let s1 := "n = 1,2 or i % 10 in 3"%string in let s2 := "v is not 4 and f = 5..6 or w = 7 @integer 8"%string in
  parse_plural_rule (bs s1) = Ok (rule_of s1) /\ parse_plural_rule (bs s2) = Ok (rule_of s2) /\
  map (@List.length relation) (ru_condition (rule_of s1)) = [1; 1]%nat /\ map (@List.length relation) (ru_condition (rule_of s2)) = [2; 1]%nat /\
  lists_nonempty (ru_condition (rule_of s1)) /\ lists_nonempty (ru_condition (rule_of s2)) /\ ru_samples (rule_of s1) = None /\
  word (bs "or") (bs "  or ") /\ word (bs "and") (bs " and ") /\
  map (@List.length relation) (ru_condition (rule_of "n = 1,2 or i % 10 in 3  or v is not 4 and f = 5..6 or w = 7 @integer 8")) = [1; 1; 2; 1]%nat /\
  map (@List.length relation) (ru_condition (rule_of "n = 1,2 or i % 10 in 3 and v is not 4 and f = 5..6 or w = 7 @integer 8")) = [1; 3; 1]%nat.
Proof.
  cbv zeta. do 4 (split; [vm_compute; reflexivity|]).
  split; [vm_compute; repeat (constructor; try discriminate)|]. split; [vm_compute; repeat (constructor; try discriminate)|].
  split; [vm_compute; reflexivity|].
  split; [exists (bs "  "), (bs " "); repeat (split || constructor || discriminate); auto|].
  split; [exists (bs " "), (bs " "); repeat (split || constructor || discriminate); auto|].
  split; vm_compute; reflexivity.
Qed.

(** and every rule text can be taken apart between its alternatives, and between the
    relations of its only alternative *)
Theorem C114_take_apart {ptr : ptr_width} s r c d : parse_plural_rule s = Ok r -> ru_condition r = c ++ d -> c <> [] -> d <> [] ->
  lists_nonempty (c ++ d) ->
  exists s1 p s2, s = s1 ++ p ++ s2 /\ word (bs "or") p /\
    parse_plural_rule s1 = Ok (mkRule c None) /\ parse_plural_rule s2 = Ok (mkRule d (ru_samples r)).
Proof. exact (C114_split_lemma s r c d). Qed.
Print Assumptions C114_take_apart.
Theorem C114_take_apart_and {ptr : ptr_width} s r a b : parse_plural_rule s = Ok r -> ru_condition r = [a ++ b] -> a <> [] -> b <> [] ->
  lists_nonempty [a ++ b] ->
  exists s1 p s2, s = s1 ++ p ++ s2 /\ word (bs "and") p /\
    parse_plural_rule s1 = Ok (mkRule [a] None) /\ parse_plural_rule s2 = Ok (mkRule [b] (ru_samples r)).
Proof. exact (C114_split_and_lemma s r a b). Qed.
Print Assumptions C114_take_apart_and.
Example C114_apart_case :
  ru_condition (rule_of "n = 1 or v = 2 and w = 3 @decimal 1.0") = [[mkRel (mkExpr ON None) OpEQ [RValue 1]]] ++ ru_condition (rule_of "v = 2 and w = 3") /\
  ru_condition (rule_of "v = 2 and w = 3") = [[mkRel (mkExpr OV None) OpEQ [RValue 2]] ++ [mkRel (mkExpr OW None) OpEQ [RValue 3]]] /\
  parse_plural_rule (bs "v = 2 and w = 3 @decimal 1.0") =
    Ok (mkRule (ru_condition (rule_of "v = 2 and w = 3")) (ru_samples (rule_of "n = 1 or v = 2 and w = 3 @decimal 1.0"))).
Proof. split; [vm_compute; reflexivity|]. split; vm_compute; reflexivity. Qed.

(** A relation without values ends the text; nothing can follow it. *)
Example C114_needs_values : exists r, parse_plural_rule (bs "n =") = Ok r /\ ru_condition r <> [] /\
  exists e, parse_plural_rule (bs "n = or i = 1") = Err e.
Proof. eexists. split; [vm_compute; reflexivity|]. split; [discriminate|]. eexists. vm_compute. reflexivity. Qed.
