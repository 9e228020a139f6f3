(** * The order on language identifiers is a total order *)
From Coq Require Import Lia Sorted.
From Verif Require Import Base LangId.
Open Scope N_scope.

(** a comparison function that is a total order *)
Record total_cmp {A} (cmp : A -> A -> comparison) : Prop := {
  tc_eq : forall a b, cmp a b = Eq <-> a = b;
  tc_anti : forall a b, cmp b a = CompOpp (cmp a b);
  tc_trans : forall a b c, cmp a b = Lt -> cmp b c = Lt -> cmp a c = Lt }.

Lemma total_list {A} (cmp : A -> A -> comparison) : total_cmp cmp -> total_cmp (list_compare cmp).
Proof.
  intros [E O T]. split.
  - induction a as [|x a IH]; destruct b as [|y b]; cbn; try easy.
    destruct (cmp x y) eqn:C; split; intro H; try discriminate; try (injection H as -> ->).
    + apply E in C. apply IH in H. congruence.
    + now apply IH.
    + assert (cmp y y = Eq) by now apply E. congruence.
    + assert (cmp y y = Eq) by now apply E. congruence.
  - induction a as [|x a IH]; destruct b as [|y b]; cbn; try easy.
    rewrite (O x y). destruct (cmp x y); cbn; auto.
  - induction a as [|x a IH]; destruct b as [|y b]; destruct c as [|z c]; cbn; try easy.
    destruct (cmp x y) eqn:C1; try easy.
    + apply E in C1. subst y. destruct (cmp x z); try easy. apply IH.
    + destruct (cmp y z) eqn:C2; try easy.
      * apply E in C2. subst z. now rewrite C1.
      * now rewrite (T _ _ _ C1 C2).
Qed.

Lemma total_N : total_cmp N.compare.
Proof.
  split; intros.
  - apply N.compare_eq_iff.
  - apply N.compare_antisym.
  - rewrite N.compare_lt_iff in *. lia.
Qed.

Lemma bytes_compare_list a b : bytes_compare a b = list_compare N.compare a b.
Proof. revert b. induction a; destruct b; cbn; try easy. now rewrite IHa. Qed.
Lemma total_bytes : total_cmp bytes_compare.
Proof.
  destruct (total_list _ total_N) as [E O T].
  split; intros; rewrite ?bytes_compare_list in *; eauto.
Qed.

Lemma total_option {A} (cmp : A -> A -> comparison) : total_cmp cmp -> total_cmp (option_compare cmp).
Proof.
  intros [E O T]. split.
  - intros [a|] [b|]; cbn; try easy. rewrite E. split; congruence.
  - intros [a|] [b|]; cbn; auto.
  - intros [a|] [b|] [c|]; cbn; try easy. apply T.
Qed.

(** lexicographic product of two comparisons through projections *)
Lemma then_trans {A B C} (c1 : B -> B -> comparison) (c2 : C -> C -> comparison)
    (p : A -> B) (q : A -> C) :
  total_cmp c1 -> total_cmp c2 ->
  forall a b c,
  then_compare (c1 (p a) (p b)) (c2 (q a) (q b)) = Lt ->
  then_compare (c1 (p b) (p c)) (c2 (q b) (q c)) = Lt ->
  then_compare (c1 (p a) (p c)) (c2 (q a) (q c)) = Lt.
Proof.
  intros [E O T] [E2 O2 T2] a b c.
  unfold then_compare.
  destruct (c1 (p a) (p b)) eqn:C1; try easy; destruct (c1 (p b) (p c)) eqn:C2; try easy.
  - apply E in C1. apply E in C2. assert (C3 : c1 (p a) (p c) = Eq) by (apply E; congruence).
    rewrite C3. apply T2.
  - intros _ _. apply E in C1. rewrite C1, C2. easy.
  - intros _ _. apply E in C2. rewrite <- C2, C1. easy.
  - intros _ _. now rewrite (T _ _ _ C1 C2).
Qed.

Lemma then_anti a b : CompOpp (then_compare a b) = then_compare (CompOpp a) (CompOpp b).
Proof. now destruct a. Qed.
Lemma then_eq a b : then_compare a b = Eq <-> a = Eq /\ b = Eq.
Proof. destruct a; cbn; intuition congruence. Qed.

Definition pair_compare {A B} (c1 : A -> A -> comparison) (c2 : B -> B -> comparison)
    (x y : A * B) : comparison := then_compare (c1 (fst x) (fst y)) (c2 (snd x) (snd y)).
Lemma total_pair {A B} (c1 : A -> A -> comparison) (c2 : B -> B -> comparison) :
  total_cmp c1 -> total_cmp c2 -> total_cmp (pair_compare c1 c2).
Proof.
  intros T1 T2. split.
  - intros [a b] [c d]. unfold pair_compare. cbn. rewrite then_eq, (tc_eq _ T1), (tc_eq _ T2).
    intuition congruence.
  - intros x y. unfold pair_compare. rewrite then_anti, <- (tc_anti _ T1), <- (tc_anti _ T2). easy.
  - intros a b c. apply (then_trans c1 c2 fst snd); assumption.
Qed.

Definition li_tuple (l : langid) :=
  (li_language l, (li_script l, (li_region l, li_variants l))).
Lemma langid_compare_tuple a b :
  langid_compare a b =
  pair_compare (option_compare bytes_compare)
    (pair_compare (option_compare bytes_compare)
      (pair_compare (option_compare bytes_compare)
                    (option_compare (list_compare bytes_compare)))) (li_tuple a) (li_tuple b).
Proof. reflexivity. Qed.

Lemma total_langid : total_cmp langid_compare.
Proof.
  pose proof (total_option _ total_bytes) as TO.
  pose proof (total_option _ (total_list _ total_bytes)) as TV.
  destruct (total_pair _ _ TO (total_pair _ _ TO (total_pair _ _ TO TV))) as [E O T].
  split; intros; rewrite ?langid_compare_tuple in *.
  - rewrite E. destruct a, b. unfold li_tuple. cbn. split; congruence.
  - apply O.
  - eapply T; eassumption.
Qed.

Lemma langid_compare_eq a b : langid_compare a b = Eq <-> a = b.
Proof. apply (tc_eq _ total_langid). Qed.
Lemma langid_compare_refl a : langid_compare a a = Eq.
Proof. now apply langid_compare_eq. Qed.
Lemma langid_compare_opp a b : langid_compare b a = CompOpp (langid_compare a b).
Proof. apply (tc_anti _ total_langid). Qed.
Lemma langid_compare_lt_trans a b c :
  langid_compare a b = Lt -> langid_compare b c = Lt -> langid_compare a c = Lt.
Proof. apply (tc_trans _ total_langid). Qed.
Lemma langid_compare_gt a b : langid_compare a b = Gt <-> langid_compare b a = Lt.
Proof. rewrite (langid_compare_opp a b). destruct (langid_compare a b); cbn; intuition congruence. Qed.
Lemma langid_eq_dec (a b : langid) : {a = b} + {a <> b}.
Proof.
  destruct (langid_compare a b) eqn:E.
  - left. now apply langid_compare_eq.
  - right. intros ->. rewrite langid_compare_refl in E. discriminate.
  - right. intros ->. rewrite langid_compare_refl in E. discriminate.
Qed.

Definition lt_id (a b : langid) : Prop := langid_compare a b = Lt.
Lemma bytes_compare_eq a b : bytes_compare a b = Eq <-> a = b.
Proof. apply (tc_eq _ total_bytes). Qed.
