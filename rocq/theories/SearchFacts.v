(** * Correctness of std's binary search on sorted slices *)
From Coq Require Import Lia Sorted.
From Verif Require Import Base PluralRules.

Definition cmp_rank (c : comparison) : nat := match c with Lt => 0 | Eq => 1 | Gt => 2 end.
(** the slice is sorted with respect to the comparator *)
Definition monotone {A} (cmp : A -> comparison) (l : list A) : Prop :=
  forall i j x y, (i <= j)%nat -> nth_error l i = Some x -> nth_error l j = Some y ->
    (cmp_rank (cmp x) <= cmp_rank (cmp y))%nat.

(** what std promises *)
Definition search_ok {A} (cmp : A -> comparison) (l : list A) (r : search_result) : Prop :=
  match r with
  | Found i => exists x, nth_error l i = Some x /\ cmp x = Eq
  | NotFound i => (i <= List.length l)%nat /\
      (forall j x, (j < i)%nat -> nth_error l j = Some x -> cmp x = Lt) /\
      (forall j x, (i <= j)%nat -> nth_error l j = Some x -> cmp x = Gt)
  end.

Lemma nth_some {A} (l : list A) i : (i < List.length l)%nat -> exists x, nth_error l i = Some x.
Proof.
  intro H. destruct (nth_error l i) eqn:E; [eauto|]. apply nth_error_None in E. lia.
Qed.

Lemma half_bounds n : (n / 2 <= n)%nat /\ (1 < n -> 1 <= n / 2 < n)%nat /\ (0 < n -> n / 2 < n)%nat.
Proof.
  assert (H : (n = 2 * (n / 2) + n mod 2)%nat) by (apply Nat.div_mod; lia).
  assert (n mod 2 < 2)%nat by (apply Nat.mod_upper_bound; lia). lia.
Qed.

Lemma lr_loop_ok {A} (cmp : A -> comparison) l fuel left right :
  monotone cmp l ->
  (right - left < fuel)%nat -> (left <= right <= List.length l)%nat ->
  (forall j x, (j < left)%nat -> nth_error l j = Some x -> cmp x = Lt) ->
  (forall j x, (right <= j)%nat -> nth_error l j = Some x -> cmp x = Gt) ->
  exists r, lr_loop cmp l fuel left right = Ok r /\ search_ok cmp l r.
Proof.
  intro M. revert left right.
  induction fuel as [|k IH]; intros left right F B L R; [lia|]. cbn [lr_loop].
  destruct (Nat.ltb_spec left right) as [H|H].
  - destruct (half_bounds (right - left)) as (H1 & H2 & H3).
    set (mid := (left + (right - left) / 2)%nat).
    assert (Hm : (left <= mid < right)%nat) by (subst mid; lia).
    destruct (nth_some l mid ltac:(lia)) as [x Hx]. rewrite Hx.
    destruct (cmp x) eqn:C.
    + eexists; split; [reflexivity|]. cbn. eauto.
    + apply IH; try lia; [|assumption].
      intros j y Hj Hy. pose proof (M j mid y x ltac:(lia) Hy Hx) as Q. rewrite C in Q. cbn in Q.
      destruct (cmp y); cbn in Q; lia || easy.
    + apply IH; try lia; [assumption|].
      intros j y Hj Hy. pose proof (M mid j x y ltac:(lia) Hx Hy) as Q. rewrite C in Q. cbn in Q.
      destruct (cmp y); cbn in Q; lia || easy.
  - eexists; split; [reflexivity|]. cbn. repeat split; try lia; [assumption|].
    intros j x Hj. apply R. lia.
Qed.

Lemma halving_loop_ok {A} (cmp : A -> comparison) l fuel base size :
  monotone cmp l ->
  (size <= fuel)%nat -> (0 < fuel)%nat -> (1 <= size)%nat -> (base + size <= List.length l)%nat ->
  (base = 0%nat \/ exists x, nth_error l base = Some x /\ cmp x <> Gt) ->
  (forall j x, (base + size <= j)%nat -> nth_error l j = Some x -> cmp x = Gt) ->
  exists r, halving_loop cmp l fuel base size = Ok r /\ search_ok cmp l r.
Proof.
  intro M. revert base size.
  induction fuel as [|k IH]; intros base size F F0 Sz B L R; [lia|]. cbn [halving_loop].
  destruct (Nat.ltb_spec 1 size) as [H|H].
  - destruct (half_bounds size) as (H1 & H2 & H3).
    set (mid := (base + size / 2)%nat).
    destruct (nth_some l mid ltac:(subst mid; lia)) as [x Hx]. rewrite Hx.
    destruct (cmp x) eqn:C.
    + apply IH; try (subst mid; lia).
      * right. exists x. split; [assumption|congruence].
      * intros j y Hj. apply R. subst mid. lia.
    + apply IH; try (subst mid; lia).
      * right. exists x. split; [assumption|congruence].
      * intros j y Hj. apply R. subst mid. lia.
    + apply IH; try (subst mid; lia); [assumption|].
      intros j y Hj Hy. destruct (Nat.le_gt_cases mid j) as [Q|Q].
      * pose proof (M mid j x y Q Hx Hy) as Z. rewrite C in Z. destruct (cmp y); cbn in Z; lia || easy.
      * subst mid. assert (size = 2 * (size / 2) + size mod 2)%nat by (apply Nat.div_mod; lia). lia.
  - assert (size = 1)%nat by lia. subst size.
    destruct (nth_some l base ltac:(lia)) as [x Hx]. rewrite Hx.
    destruct (cmp x) eqn:C.
    + eexists; split; [reflexivity|]. cbn. eauto.
    + eexists; split; [reflexivity|]. cbn [search_ok]. repeat split; try lia.
      * intros j y Hj Hy. pose proof (M j base y x ltac:(lia) Hy Hx) as Z. rewrite C in Z.
        destruct (cmp y); cbn in Z; lia || easy.
      * intros j y Hj. apply R. lia.
    + assert (base = 0)%nat.
      { destruct L as [L|(y & Hy & N)]; [assumption|]. congruence. }
      subst base. eexists; split; [reflexivity|]. cbn [search_ok]. repeat split; try lia.
      intros j y Hj Hy. pose proof (M 0%nat j x y ltac:(lia) Hx Hy) as Z. rewrite C in Z.
      destruct (cmp y); cbn in Z; lia || easy.
Qed.

Theorem binary_search_ok {A} how (cmp : A -> comparison) l :
  monotone cmp l -> exists r, binary_search how cmp l = Ok r /\ search_ok cmp l r.
Proof.
  intro M. unfold binary_search. destruct how.
  - destruct l as [|a l].
    + eexists; split; [reflexivity|]. cbn. repeat split; try lia; intros [|?] ?; discriminate.
    + apply halving_loop_ok; cbn [List.length]; [assumption|lia|lia|lia|lia|now left|].
       intros j x Hj Hx. assert (nth_error (a :: l) j = None) by (apply nth_error_None; cbn [List.length]; lia).
        congruence.
  - apply lr_loop_ok; [assumption|lia|lia|intros; lia|].
    intros j x Hj Hx. assert (nth_error l j = None) by (apply nth_error_None; lia). congruence.
Qed.
