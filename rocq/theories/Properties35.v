(** * Property C120: what each part of the shipped rules is for *)
From Verif Require Import Base LangId GenRs Ast Spec Cldr Operands PluralRules Tables ApiProps GenMeaning Represents Conformance CodeSpec InputSpec Order PartSpec PartProps.
Open Scope N_scope.

(** C120.  Leaving out an alternative, a relation or a list item of a shipped rule
    set changes the category UTS #35 gives some number, unless it is one of the 19
    listed parts; those change nothing *)
Theorem C120_cldr t id rules p : In (id, rules) (cldr t) -> In p (parts rules) ->
  (idle_in (idle_cldr t) id p <-> forall d c, proper d -> (cldr_select (leave_out p rules) d c <-> cldr_select rules d c)).
Proof. exact (C120_cldr_lemma t id rules p). Qed.
Print Assumptions C120_cldr.
(** [select] on numerals: code generated without the part differs, unless it is one of 35 *)
Theorem C120_select how w id t pr rules p : create how id t = Ok pr -> In (id, rules) (cldr t) -> In p (parts rules) ->
  (idle_in (idle_code t) id p <->
   forall s d, numeral s d -> small d -> exists po, operands_from_str s = Ok po /\ select w pr (InStr s) = Ok (code_select (leave_out p rules) po)).
Proof. exact (C120_code_lemma how w id t pr rules p). Qed.
Print Assumptions C120_select.
(** and the 35 change nothing for inputs of the other types *)
Theorem C120_inputs how id t pr rules p x d : create how id t = Ok pr -> In (id, rules) (cldr t) -> idle_in (idle_code t) id p -> ordinary x d ->
  exists po, converted W64 x = Ok po /\ select W64 pr x = Ok (code_select (leave_out p rules) po).
Proof. exact (C120_inputs_lemma how id t pr rules p x d). Qed.
Print Assumptions C120_inputs.
(** What says nothing by UTS #35 says nothing to the code *)
Theorem C120_both t id p : idle_in (idle_cldr t) id p -> idle_in (idle_code t) id p.
Proof. exact (idle_cldr_code t id p). Qed.
Print Assumptions C120_both.

(** ** Concrete cases *)
Example C120_counts :
  let all t := List.length (flat_map (fun e => parts (snd e)) (cldr t)) in
  let idle (l : list (langid * list rule_part)) := List.length (flat_map snd l) in
  (all CARDINAL + all ORDINAL)%nat = 836%nat /\
  (idle (idle_cldr CARDINAL) + idle (idle_cldr ORDINAL))%nat = 19%nat /\
  (idle (idle_code CARDINAL) + idle (idle_code ORDINAL))%nat = 35%nat.
Proof. vm_compute. auto. Qed.
(** the listed parts are parts of their locales *)
Example C120_listed t : forallb (fun e => match find_rules t (fst e) with Some rules =>
  forallb (fun p => existsb (fun q => if eq_part p q then true else false) (parts rules)) (snd e) | None => false end) (idle_code t) = true.
Proof. destruct t; vm_compute; reflexivity. Qed.
(** Filipino "v = 0 and i = 1,2,3" is covered by "v = 0 and i % 10 != 4,6,9" *)
Example C120_fil : match find_rules CARDINAL (lang "fil") with
  | Some rules => leave_out (mkPart 0 0 None None) rules = match rules with (c, alts) :: r => (c, tl alts) :: r | [] => [] end /\ List.length (parts rules) = 18%nat
  | _ => False end /\ idle_in (idle_cldr CARDINAL) (lang "fil") (mkPart 0 0 None None).
Proof. split; [vm_compute; now split|]. apply is_idle_in. vm_compute. reflexivity. Qed.
(** Russian one, "v = 0 and i % 10 = 1 and ...": without "v = 0" 1.5 is one *)
Example C120_ru : match find_rules CARDINAL (lang "ru"), operands_from_str (bs "1.5") with
  | Some rules, Ok po =>
      let p := mkPart 2 0 (Some 0%nat) None in
      (existsb (fun q => if eq_part p q then true else false) (parts rules),
       cldr_selectb rules (mkDecimal 1 [5]) ONE, cldr_selectb (leave_out p rules) (mkDecimal 1 [5]) ONE,
       code_select rules po, code_select (leave_out p rules) po) = (true, false, true, OTHER, ONE)
  | _, _ => False end.
Proof. vm_compute. reflexivity. Qed.
(** Polish one, "i = 1 and v = 0": by UTS #35 2 would be one without "i = 1"; the code
    has asked for few and many before *)
Example C120_pl : let p := mkPart 2 0 (Some 0%nat) None in
  match find_rules CARDINAL (lang "pl"), operands_from_str (bs "2") with
  | Some rules, Ok po =>
      (cldr_selectb rules (mkDecimal 2 []) ONE, cldr_selectb (leave_out p rules) (mkDecimal 2 []) ONE,
       code_select rules po, code_select (leave_out p rules) po) = (false, true, FEW, FEW)
  | _, _ => False end /\
  idle_in (idle_code CARDINAL) (lang "pl") p /\ ~ idle_in (idle_cldr CARDINAL) (lang "pl") p.
Proof. cbv zeta. split; [vm_compute; reflexivity|]. rewrite <- !is_idle_in. split; vm_compute; [reflexivity|discriminate]. Qed.
