(** * Lemmas on bytes, digits and integer parsing *)
From Coq Require Import ZifyBool ZifyN ZifyNat.
From Verif Require Import Base F64 Ast Spec.
Open Scope N_scope.

Lemma bytes_eqb_eq a : forall b, bytes_eqb a b = true <-> a = b.
Proof.
  induction a as [|x a IH]; intros [|y b]; try (split; easy).
  cbn. destruct (N.eqb_spec x y) as [->|H].
  - fold (bytes_eqb a b). rewrite IH. split; intros H; [now subst|now inversion H].
  - split; [easy|]. intros E. now inversion E.
Qed.
Lemma bytes_eqb_refl a : bytes_eqb a a = true.
Proof. now apply bytes_eqb_eq. Qed.
Lemma bytes_eqb_neq a b : bytes_eqb a b = false <-> a <> b.
Proof.
  rewrite <- (bytes_eqb_eq a b). destruct (bytes_eqb a b); split; congruence.
Qed.
Lemma bytes_eqb_sym a b : bytes_eqb a b = bytes_eqb b a.
Proof.
  destruct (bytes_eqb b a) eqn:E.
  - apply bytes_eqb_eq in E. subst. apply bytes_eqb_refl.
  - apply bytes_eqb_neq in E. apply bytes_eqb_neq. congruence.
Qed.

Lemma is_digit_iff c : is_digit c = true <-> digit_char c.
Proof. unfold is_digit, digit_char. lia. Qed.

Lemma digits_forallb s : forallb is_digit s = true <-> digits s.
Proof.
  unfold digits. rewrite forallb_forall, Forall_forall.
  split; intros H x Hx; apply is_digit_iff; auto.
Qed.

Lemma digits_app a b : digits (a ++ b) <-> digits a /\ digits b.
Proof. apply Forall_app. Qed.
Lemma digits_cons c a : digits (c :: a) <-> digit_char c /\ digits a.
Proof. apply Forall_cons_iff. Qed.
Lemma digits_repeat0 n : digits (repeat 48 n).
Proof. apply Forall_forall. intros x H. apply repeat_spec in H. subst. unfold digit_char. lia. Qed.

(** [dval] *)
Lemma dval_lt s : digits s -> dval s < 10 ^ N.of_nat (List.length s).
Proof.
  induction s as [|c r IH]; intros H; [cbn; lia|].
  apply digits_cons in H as [Hc Hr]. specialize (IH Hr).
  cbn [dval List.length]. rewrite Nat2N.inj_succ, N.pow_succ_r'.
  unfold digit_char in Hc. nia.
Qed.
Lemma dval_app a b : dval (a ++ b) = dval a * 10 ^ N.of_nat (List.length b) + dval b.
Proof.
  induction a as [|c r IH]; [reflexivity|].
  cbn [dval app]. rewrite IH, app_length, Nat2N.inj_add, N.pow_add_r. lia.
Qed.
Lemma dval_repeat0 n : dval (repeat 48 n) = 0.
Proof. induction n; cbn [repeat dval]; [reflexivity|]. rewrite IHn. lia. Qed.
Lemma dval_snoc a c : dval (a ++ [c]) = 10 * dval a + (c - 48).
Proof.
  rewrite dval_app. cbn [dval List.length]. change (N.of_nat 1) with 1. change (N.of_nat 0) with 0.
  rewrite N.pow_1_r, N.pow_0_r. lia.
Qed.

Lemma fold_digits_dval s : forall a,
  fold_left (fun a c => 10 * a + digit_val c) s a = a * 10 ^ N.of_nat (List.length s) + dval s.
Proof.
  induction s as [|c r IH]; intros a; [cbn; lia|].
  cbn [fold_left]. rewrite IH. cbn [dval List.length].
  rewrite Nat2N.inj_succ, N.pow_succ_r'. unfold digit_val. lia.
Qed.
Lemma digits_value_dval s : digits_value s = dval s.
Proof. unfold digits_value. rewrite fold_digits_dval. lia. Qed.

(** [span] *)
Lemma span_app p a b :
  forallb p a = true -> (forall c r, b = c :: r -> p c = false) -> span p (a ++ b) = (a, b).
Proof.
  induction a as [|c r IH]; intros H Hb.
  - cbn. destruct b as [|c r]; [reflexivity|]. cbn. now rewrite (Hb c r).
  - cbn in H. apply andb_prop in H as [Hc Hr].
    cbn. rewrite Hc, IH; auto.
Qed.
Lemma span_all p a : forallb p a = true -> span p a = (a, []).
Proof. intros H. rewrite <- (app_nil_r a) at 1. apply span_app; [auto|easy]. Qed.
Lemma span_spec p s : let '(a, b) := span p s in
  s = a ++ b /\ forallb p a = true /\ (forall c r, b = c :: r -> p c = false).
Proof.
  induction s as [|c r IH]; [cbn; repeat split; easy|].
  cbn. destruct (p c) eqn:E.
  - destruct (span p r) as [a b]. destruct IH as (-> & H & Hb). cbn. rewrite E. auto.
  - repeat split; auto. intros c' r' H. now inversion H; subst.
Qed.

(** [find_byte] *)
Lemma find_byte_app c a b : ~ In c a -> find_byte c (a ++ c :: b) = Some (List.length a).
Proof.
  induction a as [|x r IH]; intros H.
  - cbn. now rewrite N.eqb_refl.
  - cbn. destruct (N.eqb_spec x c) as [->|E]; [elim H; now left|].
    rewrite IH; [reflexivity|]. intros K. apply H. now right.
Qed.
Lemma find_byte_none c s : find_byte c s = None <-> ~ In c s.
Proof.
  induction s as [|x r IH]; [cbn; split; auto|].
  cbn. destruct (N.eqb_spec x c) as [->|E].
  - split; [easy|]. intros H. elim H. now left.
  - destruct (find_byte c r); cbn.
    + split; [easy|]. intros H. assert (~ In c r) by (intros K; apply H; now right).
      apply IH in H0. easy.
    + split; [|easy]. intros _ [K|K]; [congruence|]. now apply IH in K.
Qed.
Lemma find_byte_some c s k : find_byte c s = Some k ->
  exists a b, s = a ++ c :: b /\ List.length a = k /\ ~ In c a.
Proof.
  revert k; induction s as [|x r IH]; intros k; [easy|].
  cbn. destruct (N.eqb_spec x c) as [->|E].
  - intros H; inversion H; subst. exists [], r. cbn. auto.
  - destruct (find_byte c r) as [j|]; [|easy]. cbn. intros H; inversion H; subst.
    destruct (IH j eq_refl) as (a & b & -> & <- & Hn).
    exists (x :: a), b. cbn. repeat split. intros [K|K]; [congruence|auto].
Qed.
Lemma digits_not_in c s : digits s -> ~ digit_char c -> ~ In c s.
Proof. intros H Hc Hi. apply Hc. unfold digits in H. rewrite Forall_forall in H. auto. Qed.

(** [trim_end_matches] *)
Lemma drop_while_spec p s : exists a, s = a ++ drop_while p s /\ forallb p a = true /\
  (forall c r, drop_while p s = c :: r -> p c = false).
Proof.
  induction s as [|c r IH]; [exists []; cbn; repeat split; easy|].
  cbn. destruct (p c) eqn:E.
  - destruct IH as (a & H1 & H2 & H3). exists (c :: a). cbn. rewrite E, H2. cbn.
    repeat split; auto. now f_equal.
  - exists []. cbn. repeat split; auto. intros c' r' H. now inversion H; subst.
Qed.
Lemma forallb_eq_repeat c a : forallb (fun x => x =? c) a = true -> a = repeat c (List.length a).
Proof.
  induction a as [|x r IH]; [reflexivity|]. cbn. intros H. apply andb_prop in H as [H1 H2].
  apply N.eqb_eq in H1. subst. f_equal. auto.
Qed.
Lemma rev_repeat (c : N) n : rev (repeat c n) = repeat c n.
Proof.
  induction n; [reflexivity|]. cbn. rewrite IHn. clear. induction n; cbn; [easy|]. now rewrite IHn.
Qed.
Lemma trim_end_spec c s :
  (exists z, s = trim_end_matches c s ++ repeat c z) /\ (forall g, trim_end_matches c s <> g ++ [c]).
Proof.
  unfold trim_end_matches.
  destruct (drop_while_spec (fun x => x =? c) (rev s)) as (a & H1 & H2 & H3).
  split.
  - exists (List.length a). rewrite <- (rev_repeat c), <- (forallb_eq_repeat c a H2), <- rev_app_distr, <- H1.
    now rewrite rev_involutive.
  - intros g E. apply (f_equal (@rev N)) in E. rewrite rev_involutive, rev_app_distr in E. cbn in E.
    specialize (H3 _ _ E). cbn in H3. now rewrite N.eqb_refl in H3.
Qed.
Lemma trim_unique (c : N) (g1 : bytes) z1 (g2 : bytes) z2 :
  g1 ++ repeat c z1 = g2 ++ repeat c z2 ->
  (forall g, g1 <> g ++ [c]) -> (forall g, g2 <> g ++ [c]) -> g1 = g2.
Proof.
  intros E H1 H2.
  apply (f_equal (@rev N)) in E. rewrite !rev_app_distr, !rev_repeat in E.
  assert (K1 : forall r, rev g1 <> c :: r).
  { intros r K. apply (H1 (rev r)). rewrite <- (rev_involutive g1), K. reflexivity. }
  assert (K2 : forall r, rev g2 <> c :: r).
  { intros r K. apply (H2 (rev r)). rewrite <- (rev_involutive g2), K. reflexivity. }
  rewrite <- (rev_involutive g1), <- (rev_involutive g2). f_equal.
  revert z2 E. induction z1 as [|z1 IH]; intros [|z2] E; cbn in E; auto.
  - elim (K1 _ E).
  - symmetry in E. elim (K2 _ E).
  - inversion E. eauto.
Qed.

(** [u64::from_str] *)
Lemma checked_digits_ok max s : forall acc,
  digits s -> acc * 10 ^ N.of_nat (List.length s) + dval s <= max ->
  checked_digits max acc s = Some (acc * 10 ^ N.of_nat (List.length s) + dval s).
Proof.
  induction s as [|c r IH]; intros acc H M; [cbn in *; f_equal; lia|].
  apply digits_cons in H as [Hc Hr]. cbn [checked_digits].
  rewrite (proj2 (is_digit_iff c) Hc).
  cbn [dval List.length] in *. rewrite Nat2N.inj_succ, N.pow_succ_r' in *.
  set (P := 10 ^ N.of_nat (List.length r)) in *.
  assert (0 < P) by (apply N.neq_0_lt_0, N.pow_nonzero; lia).
  assert (10 * acc + (c - 48) <= max) by nia.
  unfold digit_val. cbv zeta.
  destruct (N.leb_spec (10 * acc) max); [|lia].
  destruct (N.leb_spec (10 * acc + (c - 48)) max); [|lia].
  rewrite IH; auto; fold P; [f_equal; lia|lia].
Qed.
Lemma checked_digits_some max s : forall acc x,
  acc <= max ->
  checked_digits max acc s = Some x ->
  digits s /\ x = acc * 10 ^ N.of_nat (List.length s) + dval s /\ x <= max.
Proof.
  induction s as [|c r IH]; intros acc x A H; cbn [checked_digits] in H.
  - inversion H; subst. repeat split; [constructor|cbn; lia|lia].
  - destruct (is_digit c) eqn:E; [|easy].
    cbv zeta in H. destruct (N.leb_spec (10 * acc) max); [|easy].
    destruct (N.leb_spec (10 * acc + digit_val c) max); [|easy].
    apply IH in H as (H2 & -> & H3); auto. apply is_digit_iff in E.
    repeat split; [now constructor| |auto].
    cbn [dval List.length]. rewrite Nat2N.inj_succ, N.pow_succ_r'. unfold digit_val. lia.
Qed.

(** a digit string does not start with ['+'] *)
Lemma unsigned_from_str_digits max s : digits s -> s <> [] -> dval s <= max -> unsigned_from_str max s = Some (dval s).
Proof.
  intros H Hs Hv. unfold unsigned_from_str.
  destruct s as [|c r]; [easy|].
  apply digits_cons in H as H'. destruct H' as [Hc _]. unfold digit_char in Hc.
  destruct (N.eqb_spec c 43); [lia|]. now rewrite checked_digits_ok.
Qed.
Lemma unsigned_from_str_some max s x : unsigned_from_str max s = Some x ->
  exists d, (s = d \/ s = 43 :: d) /\ digits d /\ d <> [] /\ x = dval d /\ dval d <= max.
Proof.
  unfold unsigned_from_str. destruct s as [|c r]; [easy|].
  destruct (N.eqb_spec c 43) as [->|E].
  - destruct r as [|c r]; [easy|]. intros H.
    apply checked_digits_some in H as (H1 & -> & H2); [|lia].
    exists (c :: r). repeat split; auto; easy.
  - intros H. apply checked_digits_some in H as (H1 & -> & H2); [|lia].
    exists (c :: r). repeat split; auto; easy.
Qed.
Lemma u64_from_str_digits s : digits s -> s <> [] -> dval s < 2 ^ 64 -> u64_from_str s = Some (dval s).
Proof.
  intros H Hs Hv. apply unsigned_from_str_digits; auto.
  unfold u64_max. change (2 ^ 64) with 18446744073709551616 in Hv. lia.
Qed.
Lemma u64_from_str_some s x : u64_from_str s = Some x ->
  exists d, (s = d \/ s = 43 :: d) /\ digits d /\ d <> [] /\ x = dval d /\ dval d < 2 ^ 64.
Proof.
  intro H. apply unsigned_from_str_some in H as (d & H1 & H2 & H3 & H4 & H5). exists d.
  repeat split; auto. change (2 ^ 64) with 18446744073709551616. unfold u64_max in H5. lia.
Qed.
Lemma u64_from_str_none_big s : digits s -> 2 ^ 64 <= dval s -> u64_from_str s = None.
Proof.
  intros H Hv. destruct (u64_from_str s) as [x|] eqn:E; [|reflexivity].
  apply u64_from_str_some in E as (d & [->| ->] & H1 & H2 & H3 & H4); [lia|].
  apply digits_cons in H as [Hc _]. unfold digit_char in Hc. lia.
Qed.
(** [usize::from_str] *)
Lemma usize_limit_pos {ptr : ptr_width} : 0 < usize_limit.
Proof. unfold usize_limit. now destruct ptr. Qed.
Lemma usize_from_str_digits {ptr : ptr_width} s : digits s -> s <> [] -> dval s < usize_limit ->
  usize_from_str s = Some (dval s).
Proof. intros H Hs Hv. apply unsigned_from_str_digits; auto. lia. Qed.
Lemma usize_from_str_some {ptr : ptr_width} s x : usize_from_str s = Some x ->
  exists d, (s = d \/ s = 43 :: d) /\ digits d /\ d <> [] /\ x = dval d /\ dval d < usize_limit.
Proof.
  intro H. apply unsigned_from_str_some in H as (d & H1 & H2 & H3 & H4 & H5). exists d.
  repeat split; auto. pose proof (@usize_limit_pos ptr). lia.
Qed.

(** ** Decimal rendering of integers *)
Lemma dec_aux_spec fuel : forall n acc, n < 10 ^ N.of_nat fuel -> (0 < fuel)%nat ->
  exists d, dec_aux fuel n acc = d ++ acc /\ digits d /\ dval d = n /\ d <> [] /\
    (0 < n -> 10 ^ (N.of_nat (List.length d) - 1) <= n) /\ (n = 0 -> d = [48]).
Proof.
  induction fuel as [|k IH]; intros n acc H P; [lia|]. cbn [dec_aux].
  destruct (N.ltb_spec n 10) as [L|L].
  - exists [48 + n]. split; [reflexivity|].
    split; [constructor; [unfold digit_char; lia|constructor]|].
    split; [cbn [dval List.length]; change (10 ^ N.of_nat 0) with 1; lia|].
    split; [easy|]. split; [|intros ->; reflexivity].
    intros Q. cbn [List.length]. change (10 ^ (N.of_nat 1 - 1)) with 1. lia.
  - assert (D := N.div_mod n 10 ltac:(lia)). assert (M := N.mod_lt n 10 ltac:(lia)).
    rewrite Nat2N.inj_succ, N.pow_succ_r' in H.
    assert (K : (0 < k)%nat) by (destruct k; [cbn in H; lia|lia]).
    destruct (IH (n / 10) ((48 + n mod 10) :: acc) ltac:(nia) K) as (d & E & Dd & V & Nn & B & _).
    exists (d ++ [48 + n mod 10]). rewrite E.
    split; [now rewrite <- app_assoc|].
    split; [apply digits_app; split; auto; constructor; [unfold digit_char; lia|constructor]|].
    split.
    { rewrite dval_app. cbn [dval List.length]. rewrite V.
      change (10 ^ N.of_nat 0) with 1. change (10 ^ N.of_nat 1) with 10. lia. }
    split; [destruct d; easy|].
    split; [|lia].
    intros Q. rewrite app_length. cbn [List.length].
    destruct d as [|c d']; [easy|]. cbn [List.length] in *.
    replace (N.of_nat (S (List.length d') + 1) - 1) with (N.succ (N.of_nat (S (List.length d')) - 1)) by lia.
    rewrite N.pow_succ_r'. assert (0 < n / 10) by nia. specialize (B H0). lia.
Qed.
Lemma dec_of_N_spec n : digits (dec_of_N n) /\ dval (dec_of_N n) = n /\ dec_of_N n <> [] /\
  (0 < n -> 10 ^ (N.of_nat (List.length (dec_of_N n)) - 1) <= n) /\ (n = 0 -> dec_of_N n = [48]).
Proof.
  unfold dec_of_N.
  destruct (dec_aux_spec (S (N.to_nat (N.size n))) n []) as (d & E & H); [|lia|].
  - apply N.lt_le_trans with (2 ^ N.size n); [apply N.size_gt|].
    apply N.le_trans with (10 ^ N.size n); [apply N.pow_le_mono_l; lia|].
    apply N.pow_le_mono_r; lia.
  - rewrite app_nil_r in E. rewrite E. exact H.
Qed.
