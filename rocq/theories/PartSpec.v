(** * Leaving out a part of a locale's rules

    The parts are the alternatives of an [or], the relations of an [and] and the
    items of a list; where there is only one relation or item, it is not listed
    besides the whole. *)
From Verif Require Import Base Ast GenRs LangId Cldr Conformance.
Open Scope N_scope.

(** rule, alternative, relation and item by position *)
Record rule_part := mkPart { p_rule : nat; p_alt : nat; p_rel : option nat; p_item : option nat }.
Definition eq_part (a b : rule_part) : {a = b} + {a <> b}.
Proof. repeat decide equality. Defined.

Fixpoint without {A} (k : nat) (l : list A) : list A :=
  match l, k with [], _ => [] | _ :: r, O => r | a :: r, S k => a :: without k r end.
Fixpoint changed {A} (k : nat) (f : A -> A) (l : list A) : list A :=
  match l, k with [], _ => [] | a :: r, O => f a :: r | a :: r, S k => a :: changed k f r end.
Definition leave_out (p : rule_part) (rules : list (category * condition)) : list (category * condition) :=
  changed (p_rule p) (fun rule => (fst rule,
    match p_rel p, p_item p with
    | None, _ => without (p_alt p) (snd rule)
    | Some j, None => changed (p_alt p) (without j) (snd rule)
    | Some j, Some k => changed (p_alt p) (changed j (fun r => mkRel (rel_expr r) (rel_op r) (without k (rel_list r)))) (snd rule)
    end)) rules.

Definition numbered {A} (l : list A) : list (nat * A) := combine (seq 0 (List.length l)) l.
Definition several {A} (l : list A) : bool := match l with [_] => false | _ => true end.
Definition parts (rules : list (category * condition)) : list rule_part :=
  flat_map (fun '(r, rule) =>
    match fst rule with
    | OTHER => []
    | _ => flat_map (fun '(a, alt) =>
        mkPart r a None None ::
        flat_map (fun '(j, rel) =>
          (if several alt then [mkPart r a (Some j) None] else []) ++
          (if several (rel_list rel) then List.map (fun '(k, _) => mkPart r a (Some j) (Some k)) (numbered (rel_list rel)) else []))
          (numbered alt))
        (numbered (snd rule))
    end) (numbered rules).

(** The parts of the CLDR data that say nothing, by UTS #35 ... *)
Definition fil_idle := [mkPart 0 0 None None; mkPart 0 0 (Some 1%nat) (Some 0%nat); mkPart 0 0 (Some 1%nat) (Some 1%nat); mkPart 0 0 (Some 1%nat) (Some 2%nat)].
Definition relation_idle (r a j : nat) := mkPart r a (Some j) None.
Definition idle_cldr (t : pr_type) : list (langid * list rule_part) :=
  match t with
  | CARDINAL => [(lang "ceb", fil_idle); (lang "fil", fil_idle); (lang "tl", fil_idle);
      (lang "is", [relation_idle 0 0 0]); (lang "kw", [relation_idle 4 2 0]); (lang "lv", [relation_idle 0 1 0]);
      (lang "prg", [relation_idle 0 1 0]); (lang "sl", [relation_idle 0 0 0])]
  | ORDINAL => [(lang "kw", [mkPart 0 0 None None; mkPart 1 0 None None])]
  end.
(** ... and those that say nothing to the generated code: these, and tests that an
    earlier rule or the misread range of C47 makes superfluous *)
Definition idle_code (t : pr_type) : list (langid * list rule_part) :=
  match t with
  | CARDINAL => [(lang "ceb", fil_idle); (lang "fil", fil_idle); (lang "tl", fil_idle);
      (lang "is", [relation_idle 0 0 0]); (lang "kw", [relation_idle 4 2 0]); (lang "lv", [relation_idle 0 1 0]);
      (lang "prg", [relation_idle 0 1 0]);
      (lang "sl", [relation_idle 0 0 0; relation_idle 1 0 0; relation_idle 3 0 0]);
      (lang "be", [relation_idle 0 0 1]); (lang "lt", [relation_idle 0 0 1]);
      (lang "cs", [relation_idle 2 0 1]); (lang "sk", [relation_idle 2 0 1]);
      (lang "gv", [relation_idle 2 0 0; relation_idle 4 0 0]);
      (lang "mo", [relation_idle 1 0 1]); (lang "ro", [relation_idle 1 0 1]);
      (lang "pl", [relation_idle 1 0 2; relation_idle 2 0 0]);
      (lang "ru", [relation_idle 2 0 1; relation_idle 2 0 2]); (lang "uk", [relation_idle 2 0 1; relation_idle 2 0 2])]
  | ORDINAL => [(lang "kw", [mkPart 0 0 None None; mkPart 1 0 None None])]
  end.
Definition idle_in (l : list (langid * list rule_part)) (id : langid) (p : rule_part) : Prop := exists ps, In (id, ps) l /\ In p ps.
