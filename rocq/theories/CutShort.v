(** * Categories that stop although CLDR's go on (for C133) *)
From Coq Require Import Lia.
From Verif Require Import Base LangId GenRs Operands Ast RustExpr Spec Cldr PluralRules Tables ApiProps Conformance ConformanceProps
  Exclusive RepeatProps CycleProps LangIdFacts WrongCount Confused LastSeen.
Open Scope N_scope.

(** a locale, the category, the last integer that [select] gives it *)
Definition cut_short (t : pr_type) : list (langid * category * N) :=
  match t with
  | CARDINAL => [(lang "ar", FEW, 10); (lang "ar", MANY, 99); (lang "ars", FEW, 10); (lang "ars", MANY, 99); (lang "be", FEW, 4);
                 (lang "lt", FEW, 9); (lang "mo", FEW, 19); (lang "ro", FEW, 19); (lang "mt", FEW, 10); (lang "mt", MANY, 19)]
  | ORDINAL => [(lang "kw", ONE, 84)]
  end.

Definition check_cut (t : pr_type) (e : langid * category * N) : bool :=
  let '(id, c, m) := e in
  match last_of (last_seen t) id c, find_rules t id with
  | Some k, Some rules => (k =? m) && repeatsb 101 100 rules && existsb (fun y => cldr_selectb rules (mkDecimal y []) c) [102; 103; 111; 112; 115; 121]
  | _, _ => false
  end.
Lemma cut_checked t : forallb (check_cut t) (cut_short t) = true.
Proof. destruct t; vm_compute; reflexivity. Qed.
Lemma C133_lemma how id t pr w rules c m : create how id t = Ok pr -> In (id, rules) (cldr t) -> In (id, c, m) (cut_short t) ->
  (select w pr (InUnsigned m) = Ok c /\ forall x, x < 2 ^ 64 -> select w pr (InUnsigned x) = Ok c -> x <= m) /\
  forall a, 101 <= a -> exists x, a <= x /\ x < a + 100 /\ cldr_select rules (mkDecimal x []) c.
Proof.
  intros C I J. pose proof (cut_checked t) as K. rewrite forallb_forall in K. specialize (K _ J). unfold check_cut in K.
  destruct (last_of _ id c) as [k|] eqn:L; [|discriminate]. rewrite (in_find_rules t id rules I) in K.
  apply andb_prop in K as [K Q]. apply andb_prop in K as [K R]. apply N.eqb_eq in K. subst k.
  apply last_of_in in L as (ids & L & M). split; [exact (C131_lemma how id t pr w c m ids C L M)|]. intros a A.
  apply existsb_exists in Q as (y & Y & Q). apply cldr_selectb_iff in Q. apply repeatsb_ok in R.
  assert (Y0 : 101 <= y) by (cbn [In] in Y; lia).
  assert (W : exists x, a <= x /\ x < a + 100 /\ x mod 100 = y mod 100).
  { destruct (N.le_gt_cases a y) as [H|H]; [now apply into_window|now apply up_window]. }
  destruct W as (x & X1 & X2 & X3). exists x. split; [exact X1|]. split; [exact X2|].
  refine (proj1 (repeats_uts 101 100 rules [] y x c R _ _ _ _) Q); [discriminate|exact Y0|lia|now symmetry].
Qed.

(** any other category that stops does so by CLDR as well *)
Definition stops_rightly (t : pr_type) : bool :=
  forallb (fun e => forallb (fun id =>
    existsb (fun k => langid_eqb id (fst (fst k)) && cat_eqb (fst (fst e)) (snd (fst k))) (cut_short t) ||
    forallb (fun l => negb (langid_eqb id (fst l)) || forallb (fun p => negb (cat_eqb (fst p) (fst (fst e)))) (snd l)) (confusions t)) (snd e)) (last_seen t).
Lemma stops_rightly_ok t : stops_rightly t = true.
Proof. destruct t; vm_compute; reflexivity. Qed.
(** the last integer is right *)
Definition last_right (t : pr_type) : bool :=
  forallb (fun e => forallb (fun id => match find_rules t id with Some rules => cldr_selectb rules (mkDecimal (snd (fst e)) []) (fst (fst e)) | None => false end) (snd e)) (last_seen t).
Lemma last_right_ok t : last_right t = true.
Proof. destruct t; vm_compute; reflexivity. Qed.
Lemma stops_at t id rules c m ids : In (id, rules) (cldr t) -> In (c, m, ids) (last_seen t) -> In id ids -> cldr_select rules (mkDecimal m []) c.
Proof.
  intros I L M. pose proof (last_right_ok t) as A. unfold last_right in A. rewrite forallb_forall in A. specialize (A _ L). cbn [fst snd] in A.
  rewrite forallb_forall in A. specialize (A _ M). rewrite (in_find_rules t id rules I) in A. now apply cldr_selectb_iff.
Qed.
Lemma C133_other_lemma how id t pr rules c m ids : create how id t = Ok pr -> In (id, rules) (cldr t) ->
  In (c, m, ids) (last_seen t) -> In id ids -> (forall k, ~ In (id, c, k) (cut_short t)) ->
  cldr_select rules (mkDecimal m []) c /\ forall x, x < 2 ^ 64 -> cldr_select rules (mkDecimal x []) c -> x <= m.
Proof.
  intros C I L M N. destruct (C131_lemma how id t pr W64 c m ids C L M) as [S Z].
  assert (Q : forall x, x < 2 ^ 64 -> cldr_select rules (mkDecimal x []) c -> select W64 pr (InUnsigned x) = Ok c).
  { intros x X R. rewrite (select_int how id t pr W64 x C X). destruct (cat_eqb (int_select (pr_function pr) x) c) eqn:E0; [apply cat_eqb_eq in E0; now rewrite E0|].
    assert (E : int_select (pr_function pr) x <> c) by (intro E; rewrite <- cat_eqb_eq in E; congruence).
    exfalso. destruct (C130_lemma how id t pr W64 rules x _ c C I X (select_int how id t pr W64 x C X) R E) as (l & L1 & L2).
    pose proof (stops_rightly_ok t) as A. unfold stops_rightly in A. rewrite forallb_forall in A. specialize (A _ L). cbn [fst snd] in A.
    rewrite forallb_forall in A. specialize (A _ M). apply orb_prop in A as [A|A].
    + apply existsb_exists in A as ([[i k] n] & A & B). cbn [fst snd] in B. apply andb_prop in B as [B1 B2].
      apply langid_eqb_eq in B1. apply cat_eqb_eq in B2. subst i k. exact (N n A).
    + rewrite forallb_forall in A. specialize (A _ L1). cbn [fst snd] in A. rewrite (proj2 (langid_eqb_eq id id) eq_refl) in A. cbn [negb orb] in A.
      rewrite forallb_forall in A. specialize (A _ L2). cbn [fst] in A. rewrite (proj2 (cat_eqb_eq c c) eq_refl) in A. discriminate. }
  split; [|intros x X R; exact (Z x X (Q x X R))].
  exact (stops_at t id rules c m ids I L M).
Qed.
