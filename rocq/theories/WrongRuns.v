(** * The first wrong integer and the longest run of wrong ones (for C134) *)
From Coq Require Import Lia.
From Verif Require Import Base LangId GenRs Operands Spec PluralRules Tables ApiProps Conformance CycleProps WrongSpec LangIdFacts WrongCount Confused.
Open Scope N_scope.

(** the smallest wrong integer, how many consecutive integers are wrong at most, where such a run starts *)
Definition runs (t : pr_type) : list (langid * (N * N * N)) :=
  match t with
  | CARDINAL =>
      [(lang "ar", (103, 97, 103)); (lang "ars", (103, 97, 103)); (lang "be", (15, 9, 111)); (lang "br", (23, 2, 23));
       (lang "kw", (101000, 1, 101000)); (lang "lt", (22, 8, 22)); (lang "lv", (111, 9, 111)); (lang "mo", (102, 18, 102));
       (lang "mt", (102, 18, 102)); (lang "prg", (111, 9, 111)); (lang "ro", (102, 18, 102))]
  | ORDINAL => [(lang "kw", (101, 4, 101))]
  end.

Definition right_in (p : N -> bool) (a n : N) : bool := anyb (fun x => negb (p x)) (integers a n).
Definition check_runs (t : pr_type) (e : langid * (N * N * N)) : bool :=
  let '(id, (m, n, s)) := e in
  match List.find (fun e' => langid_eqb id (fst e')) (rates t) with
  | Some (_, r) => let p := wrong_of t id in
      p m && check_from (fun x => negb (p x)) (N.to_nat m) 0 && check_from p (N.to_nat n) s && negb (of r =? 0) && (s + n <? 2 ^ 64) && (m <? 2 ^ 64) &&
      check_from (fun a => right_in p a (n + 1)) (N.to_nat (from r + of r)) 0
  | None => false
  end.
Lemma runs_checked t : forallb (check_runs t) (runs t) = true.
Proof. destruct t; vm_compute; reflexivity. Qed.
Lemma runs_all t : List.map fst (runs t) = List.map fst (rates t).
Proof. destruct t; reflexivity. Qed.

Lemma moved (p : N -> bool) B P q x : (forall x, B <= x -> p (x + P) = p x) -> B <= x -> p (x + q * P) = p x.
Proof.
  intros H L. induction q as [|q IH] using N.peano_ind; [now rewrite N.add_0_r|].
  replace (x + N.succ q * P) with (x + q * P + P) by lia. rewrite H by lia. exact IH.
Qed.
Lemma C134_lemma how id t pr w m n s : create how id t = Ok pr -> In (id, (m, n, s)) (runs t) ->
  (m < 2 ^ 64 /\ wrong_at t id pr w m /\ forall x, x < m -> ~ wrong_at t id pr w x) /\
  (s + n < 2 ^ 64 /\ forall x, s <= x -> x < s + n -> wrong_at t id pr w x) /\
  forall a, a + n < 2 ^ 64 -> exists x, a <= x /\ x <= a + n /\ ~ wrong_at t id pr w x.
Proof.
  intros C I. pose proof (runs_checked t) as K. rewrite forallb_forall in K. specialize (K _ I). unfold check_runs in K.
  destruct (List.find _ (rates t)) as [[k r]|] eqn:F; [|discriminate]. apply find_some in F as [F E]. cbn [fst] in E. apply langid_eqb_eq in E. subst k.
  pose proof (rates_ok t) as R. rewrite Forall_forall in R. specialize (R _ F) as [R _]. cbn [fst snd] in R.
  rewrite !andb_true_iff in K. destruct K as [[[[[[K1 K2] K3] K4] K5] K6] K7].
  apply Bool.negb_true_iff, N.eqb_neq in K4. apply N.ltb_lt in K5, K6.
  assert (W : forall x, x < 2 ^ 64 -> (wrong_at t id pr w x <-> wrong_of t id x = true)).
  { intros x X. rewrite wrong_of_int. exact (wrong_at_iff how t id pr w x C X). }
  split; [split; [exact K6|]; split|split; [split; [exact K5|]|]].
  - now apply W.
  - intros x X H. apply W in H; [|exact (N.lt_trans _ _ _ X K6)]. assert (Z := check_from_ok _ _ _ K2 x (N.le_0_l _)).
    rewrite N2Nat.id in Z. specialize (Z X). cbv beta in Z. rewrite H in Z. discriminate.
  - intros x L X. apply W; [exact (N.lt_trans _ _ _ X K5)|]. assert (Z := check_from_ok _ _ _ K3 x L). rewrite N2Nat.id in Z. exact (Z X).
  - intros a A.
    assert (Q : exists b q, b < from r + of r /\ a = b + q * of r /\ (q = 0 \/ from r <= b)).
    { destruct (N.lt_ge_cases a (from r)) as [L|L]; [exists a, 0; lia|].
      pose proof (N.div_mod (a - from r) (of r) K4) as D. pose proof (N.mod_lt (a - from r) (of r) K4) as M.
      exists (from r + (a - from r) mod of r), ((a - from r) / of r). split; [lia|]. split; [|right; lia]. rewrite (N.mul_comm _ (of r)). lia. }
    destruct Q as (b & q & B & E & Q). assert (Z := check_from_ok _ _ _ K7 b (N.le_0_l _)). rewrite N2Nat.id in Z. specialize (Z B). cbv beta in Z.
    unfold right_in in Z. apply anyb_in in Z as (x & X & Z). apply integers_in in X. apply Bool.negb_true_iff in Z.
    exists (x + q * of r). split; [lia|]. split; [lia|]. intros H. apply W in H; [|lia].
    destruct Q as [->|Q]; [rewrite N.mul_0_l, N.add_0_r in H; congruence|].
    rewrite wrong_of_int in H, Z. rewrite (moved (wrong_int t id) (from r) (of r) q x R) in H by lia. congruence.
Qed.
Lemma C134_listed_lemma how id t pr w x : create how id t = Ok pr -> x < 2 ^ 64 -> wrong_at t id pr w x -> In id (List.map fst (runs t)).
Proof.
  intros C X W. rewrite runs_all. destruct (in_dec langid_eq_dec id (List.map fst (rates t))) as [J|J]; [exact J|].
  destruct (C129_none_lemma how id t pr w x C J X W).
Qed.
