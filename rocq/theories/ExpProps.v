(** * Lemmas behind C87 *)
From Coq Require Import Lia Lra Reals Floats.SpecFloat.
From Flocq Require Import Core.
From Verif Require Import Base F64 Operands Ast LangId GenRs PluralRules Tables Spec SpecR ApiProps Conformance ExpSpec F64Facts DigitFacts OperandsFacts OperandsProps FloatProps Shortest.
Open Scope N_scope.

(** ** The exponent *)
Definition exp_from (a : N) (s : bytes) : N :=
  fold_left (fun a c => if a <? 65536 then 10 * a + digit_val c else a) s a.
Lemma exp_from_big s a : 65536 <= a -> exp_from a s = a.
Proof.
  revert a. induction s as [|c s IH]; intros a H; [reflexivity|]. unfold exp_from in *. cbn [fold_left].
  assert (E : a <? 65536 = false) by (apply N.ltb_ge; lia). rewrite E. now apply IH.
Qed.
Lemma exp_from_spec s a : digits s ->
  (a * 10 ^ N.of_nat (List.length s) + dval s < 65536 -> exp_from a s = a * 10 ^ N.of_nat (List.length s) + dval s) /\
  (65536 <= a * 10 ^ N.of_nat (List.length s) + dval s -> 65536 <= exp_from a s).
Proof.
  revert a. induction s as [|c s IH]; intros a D.
  - cbn [List.length dval]. change (10 ^ N.of_nat 0) with 1. unfold exp_from. cbn [fold_left]. lia.
  - apply digits_cons in D as [C D]. cbn [List.length dval]. rewrite Nat2N.inj_succ, N.pow_succ_r by lia.
    set (p := 10 ^ N.of_nat (List.length s)) in *.
    assert (P : 1 <= p) by (pose proof (N.pow_nonzero 10 (N.of_nat (List.length s))); unfold p; lia).
    destruct (N.lt_ge_cases a 65536) as [L|G].
    + assert (E : a <? 65536 = true) by now apply N.ltb_lt.
      assert (R : exp_from a (c :: s) = exp_from (10 * a + (c - 48)) s).
      { unfold exp_from. cbn [fold_left]. rewrite E. reflexivity. }
      rewrite R. destruct (IH (10 * a + (c - 48)) D) as [A B].
      replace (a * (10 * p) + ((c - 48) * p + dval s)) with ((10 * a + (c - 48)) * p + dval s) by nia. auto.
    + rewrite exp_from_big by exact G. split; [nia|lia].
Qed.
Lemma exp_acc_spec s : digits s -> (dval s < 65536 -> exp_acc s = dval s) /\ (65536 <= dval s -> 65536 <= exp_acc s).
Proof. intro D. destruct (exp_from_spec s 0 D) as [A B]. rewrite N.mul_0_l, N.add_0_l in *. auto. Qed.

Definition with_sign (es : bytes) (x : Z) : Z := match es with 45 :: _ => (- x)%Z | _ => x end.
Lemma parse_scientific_value es d : sign_opt es -> digits d -> d <> [] ->
  parse_scientific (es ++ d) = Some (with_sign es (Z.of_N (exp_acc d))).
Proof.
  intros S D N. unfold parse_scientific. destruct d as [|c r]; [easy|].
  assert (D' := D). apply digits_forallb in D. apply digits_cons in D' as [Hc _]. unfold digit_char in Hc.
  destruct S as [->|[->| ->]]; cbn [app].
  - destruct (N.eqb_spec c 45); [lia|]. destruct (N.eqb_spec c 43); [lia|]. now rewrite D.
  - cbn [N.eqb Pos.eqb]. now rewrite D.
  - cbn [N.eqb Pos.eqb]. now rewrite D.
Qed.
Lemma from_str_exp sg i c es d : minus_opt sg -> digits i -> i <> [] -> c = 101 \/ c = 69 -> sign_opt es -> digits d -> d <> [] ->
  let n := dec64 (dval i) (with_sign es (Z.of_N (exp_acc d))) in
  operands_from_str (sg ++ i ++ c :: es ++ d) = Ok (mkOps n (float_to_u64 n) 0 0 0 0).
Proof.
  intros S D N C E Dd Nd n.
  assert (X : exponent (c :: es ++ d)) by (right; exists c, es, d; auto).
  assert (P : parse_number (i ++ c :: es ++ d) = Some (dval i, with_sign es (Z.of_N (exp_acc d)))).
  { unfold parse_number.
    rewrite span_app; [|now apply digits_forallb|intros c' r K; now apply (head_not_digit_exp _ X c' r)].
    assert (C1 : c =? 46 = false) by (destruct C as [->| ->]; reflexivity).
    rewrite C1, app_nil_r. destruct i as [|c' r]; [easy|].
    assert (C2 : (c =? 101) || (c =? 69) = true) by (destruct C as [->| ->]; reflexivity).
    rewrite C2, (parse_scientific_value es d E Dd Nd), digits_value_dval. reflexivity. }
  assert (F : from_abs (i ++ c :: es ++ d) = Ok (mkOps n (float_to_u64 n) 0 0 0 0)).
  { destruct (from_abs_int [] i (c :: es ++ d) (or_introl eq_refl) D N X) as (e & _ & H). cbv zeta in H. cbn [app] in H.
    rewrite H. unfold from_abs in H.
    pose proof (f64_from_str_sign [] (i ++ c :: es ++ d) (or_introl eq_refl) (no_sign_digits i _ D N) ltac:(destruct i; discriminate)) as Q.
    cbn [app is_minus] in Q. rewrite P in Q. rewrite Q in H. cbn [ok_or rbind] in H.
    destruct (find_byte 46 (i ++ c :: es ++ d)) as [k|] eqn:FB.
    - exfalso. apply find_byte_some in FB as (a & b & K & _ & _).
      assert (Z : In 46 (i ++ c :: es ++ d)) by (rewrite K; apply in_elt).
      apply in_app_or in Z as [Z|Z]; [|now apply in_exponent in Z].
      revert Z. apply digits_not_in; auto. unfold digit_char. lia.
    - exact (eq_sym H). }
  destruct S as [->| ->]; cbn [app].
  - rewrite from_str_plain; [exact F|]. now apply not_minus_digits.
  - rewrite from_str_minus; [exact F|]. now apply ascii_head_digits.
Qed.

(** ** Values that are too small or too large *)
Open Scope R_scope.
Lemma rnd64_tiny x : 0 <= x <= bpow radix2 (-1076) -> rnd64 x = 0.
Proof.
  intros [A B]. apply Rle_antisym.
  - apply Rle_trans with (rnd64 (bpow radix2 (-1076))); [apply round_le; auto with typeclass_instances|].
    apply Req_le. apply (round_N_small_pos radix2 fexp64 _ _ (-1075)); [|reflexivity].
    split; [apply Req_le; reflexivity|apply bpow_lt; reflexivity].
  - rewrite <- (round_0 radix2 fexp64 ZnearestE). apply round_le; auto with typeclass_instances.
Qed.
Lemma rnd64_huge x : bpow radix2 1024 <= x -> bpow radix2 1024 <= rnd64 x.
Proof.
  intro H. apply Rle_trans with (rnd64 (bpow radix2 1024)).
  - apply Req_le. symmetry. apply round_generic; auto with typeclass_instances. apply generic_format_bpow. vm_compute. discriminate.
  - apply round_le; auto with typeclass_instances.
Qed.
Lemma nearest64_same x x' y : rnd64 x = rnd64 x' -> nearest64 x y -> nearest64 x' y.
Proof. unfold nearest64. cbv zeta. change (FLT_exp (-1074) 53) with fexp64. intros ->. auto. Qed.
Lemma nearest64_both_huge x x' y : bpow radix2 1024 <= x -> bpow radix2 1024 <= x' -> nearest64 x y -> nearest64 x' y.
Proof.
  intros A B. apply rnd64_huge in A, B. unfold nearest64. cbv zeta. change (FLT_exp (-1074) 53) with fexp64.
  intros [(L & _)|[_ E]]; [lra|]. right. auto.
Qed.
Lemma huge_dec m e : (0 < m)%N -> (65536 <= e)%Z -> bpow radix2 1024 <= dec_real m e.
Proof.
  intros M E. unfold dec_real.
  assert (A : 1 <= IZR (Z.of_N m)) by (apply IZR_le; lia).
  assert (B : bpow radix2 1024 <= bpow radix10 e).
  { apply Rle_trans with (bpow radix10 309); [|apply bpow_le; lia].
    rewrite <- (IZR_Zpower radix2), <- (IZR_Zpower radix10) by lia. apply IZR_le. vm_compute. discriminate. }
  pose proof (bpow_gt_0 radix10 e). nra.
Qed.
Lemma tiny_dec m k e : (m < 10 ^ N.of_nat k)%N -> (Z.of_nat k + 536 <= e)%Z -> 0 <= dec_real m (- e) <= bpow radix2 (-1076).
Proof.
  intros M E. split; [apply dec_real_ge0|]. unfold dec_real.
  assert (A : IZR (Z.of_N m) <= bpow radix10 (Z.of_nat k)).
  { rewrite <- (IZR_Zpower radix10) by lia. apply IZR_le. apply N2Z.inj_lt in M. rewrite N2Z.inj_pow, nat_N_Z in M.
    change (Z.of_N 10) with 10%Z in M. change (radix_val radix10) with 10%Z. lia. }
  apply Rle_trans with (bpow radix10 (Z.of_nat k) * bpow radix10 (- e)).
  - apply Rmult_le_compat_r; [apply bpow_ge_0|exact A].
  - rewrite <- bpow_plus. apply Rle_trans with (bpow radix10 (-536)); [apply bpow_le; lia|].
    change (-536)%Z with (- (536))%Z. change (-1076)%Z with (- (1076))%Z. rewrite !bpow_opp.
    apply Rinv_le; [apply bpow_gt_0|].
    rewrite <- (IZR_Zpower radix2), <- (IZR_Zpower radix10) by lia. apply IZR_le. vm_compute. discriminate.
Qed.
Open Scope N_scope.

(** ** The value *)
Lemma dec64_exp i es d : digits i -> sign_opt es -> digits d ->
  (es = [45] -> dval d < 65536 \/ N.of_nat (List.length i) <= 65000) ->
  nearest64 (dec_real (dval i) (with_sign es (Z.of_N (dval d)))) (dec64 (dval i) (with_sign es (Z.of_N (exp_acc d)))).
Proof.
  intros Di S Dd B. destruct (exp_acc_spec d Dd) as [A1 A2].
  destruct (N.lt_ge_cases (dval d) 65536) as [L|G]; [rewrite A1 by exact L; apply dec64_nearest'|].
  specialize (A2 G).
  assert (P : forall z z', dval i = 0 -> nearest64 (dec_real (dval i) z) (dec64 (dval i) z')).
  { intros z z' K. rewrite K. replace (dec_real 0 z) with (dec_real 0 z'); [apply dec64_nearest'|].
    unfold dec_real. cbn [Z.of_N]. lra. }
  destruct (N.eq_0_gt_0_cases (dval i)) as [K|K]; [now apply P|].
  destruct S as [->|[->| ->]]; cbn [with_sign].
  - eapply nearest64_both_huge; [| |apply dec64_nearest']; apply huge_dec; lia.
  - eapply nearest64_both_huge; [| |apply dec64_nearest']; apply huge_dec; lia.
  - eapply nearest64_same; [|apply dec64_nearest'].
    destruct (B eq_refl) as [B'|B']; [lia|].
    assert (M := dval_lt i Di).
    rewrite !rnd64_tiny; [reflexivity|apply (tiny_dec _ (List.length i)); [exact M|lia]|apply (tiny_dec _ (List.length i)); [exact M|lia]].
Qed.

Lemma exponent_text_ok s i neg e : exponent_text s i neg e ->
  digits i /\ i <> [] /\ exists sg es d, minus_opt sg /\ sign_opt es /\ (es = [45] <-> neg = true) /\ digits d /\ dval d = e /\
  let n := dec64 (dval i) (with_sign es (Z.of_N (exp_acc d))) in
  operands_from_str s = Ok (mkOps n (float_to_u64 n) 0 0 0 0) /\ exists r, s = sg ++ i ++ r.
Proof.
  intros (sg & c & es & d & -> & S & Di & Ni & C & E & Dd & Nd & V).
  assert (So : sign_opt es) by (unfold sign_opt; destruct neg; tauto).
  split; [exact Di|]. split; [exact Ni|]. exists sg, es, d.
  split; [exact S|]. split; [exact So|].
  split; [destruct neg; [tauto|]; split; [intros ->; destruct E; discriminate|discriminate]|].
  split; [exact Dd|]. split; [exact V|]. cbv zeta. split; [now apply from_str_exp|eauto].
Qed.
Lemma with_sign_neg es neg x : sign_opt es -> (es = [45] <-> neg = true) -> with_sign es x = if neg then (- x)%Z else x.
Proof.
  intros [->|[->| ->]] K; cbn [with_sign]; destruct neg; try reflexivity;
    [destruct K as [_ K]; specialize (K eq_refl); discriminate|destruct K as [_ K]; specialize (K eq_refl); discriminate|
     destruct K as [K _]; specialize (K eq_refl); discriminate].
Qed.

Lemma C87_value_lemma s i neg e : exponent_text s i neg e ->
  exists n k, operands_from_str s = Ok (mkOps n k 0 0 0 0) /\ integer_part n k /\
  (neg = false \/ e < 65536 \/ N.of_nat (List.length i) <= 65000 -> nearest64 (exponent_value i neg e) n).
Proof.
  intro H. apply exponent_text_ok in H as (Di & Ni & sg & es & d & S & So & Ne & Dd & V & H & _). cbv zeta in H.
  eexists _, _. split; [exact H|]. split.
  - destruct (dec64_nearest' (dval i) (with_sign es (Z.of_N (exp_acc d)))) as [(A & B & C & D & F)|[A B]].
    + right. split; [exact B|]. now apply float_to_u64_correct.
    + left. rewrite B. auto.
  - intro K. unfold exponent_value. fold (dec_real (dval i) (if neg then - Z.of_N e else Z.of_N e)%Z).
    rewrite <- (with_sign_neg es neg (Z.of_N e) So Ne), <- V. apply dec64_exp; auto.
    intro Q. apply Ne in Q. subst neg. rewrite V. destruct K as [K|K]; [discriminate|exact K].
Qed.

Lemma C87_positive_lemma s i e : exponent_text s i false e ->
  exists sg r, s = sg ++ i ++ r /\ minus_opt sg /\
  operands_from_str s = operands_from_str (sg ++ i ++ repeat 48 (N.to_nat e)).
Proof.
  intro H. apply exponent_text_ok in H as (Di & Ni & sg & es & d & S & So & Ne & Dd & V & H & r & Es). cbv zeta in H.
  exists sg, r. split; [exact Es|]. split; [exact S|]. rewrite H.
  rewrite from_str_int; [|exact S|apply digits_app; split; [exact Di|apply digits_repeat0]|intro K; apply app_eq_nil in K; tauto].
  assert (X : dec64 (dval i) (with_sign es (Z.of_N (exp_acc d))) = f64_of_N (dval (i ++ repeat 48 (N.to_nat e)))).
  { unfold f64_of_N. apply nearest64_unique with (x := dec_real (dval (i ++ repeat 48 (N.to_nat e))) 0); [|apply dec64_nearest'].
    rewrite dval_app, dval_repeat0, repeat_length, N.add_0_r, N2Nat.id.
    replace (dec_real (dval i * 10 ^ e) 0) with (dec_real (dval i) (with_sign es (Z.of_N (dval d)))).
    - apply dec64_exp; auto. intro Q. apply Ne in Q. discriminate.
    - rewrite (with_sign_neg es false) by assumption. rewrite V. symmetry.
      replace e with (Z.to_N (Z.of_N e)) at 1 by lia. apply dec_real_shift. lia. }
  now rewrite X.
Qed.

Lemma C87_refuted_lemma : exists pr s i e s' d, create Halving (lang "en") CARDINAL = Ok pr /\
  exponent_text s i true e /\ numeral s' d /\ small d /\ exponent_value i true e = exact_value (uts_num d) (List.length (d_frac d)) /\
  select W64 pr (InStr s) = Ok ONE /\ select W64 pr (InStr s') = Ok OTHER.
Proof.
  assert (D : forall s, forallb is_digit s = true -> digits s) by (intros s H; now apply digits_forallb).
  eexists. exists (bs "15e-1"), (bs "15"), 1, (bs "1.5"), (mkDecimal 1 [5]).
  split; [vm_compute; reflexivity|].
  split. { exists [], 101, [45], (bs "1"). split; [reflexivity|]. split; [now left|]. split; [now apply D|]. split; [discriminate|].
           split; [now left|]. split; [reflexivity|]. split; [now apply D|]. split; [discriminate|reflexivity]. }
  split. { exists [], (bs "1"), (bs "5"). split; [now left|]. split; [now apply D|]. split; [discriminate|]. split; [now apply D|]. split; reflexivity. }
  split; [split; vm_compute; [reflexivity|discriminate]|].
  split; [unfold exponent_value, exact_value; change (dval (bs "15")) with 15; change (uts_num (mkDecimal 1 [5])) with 15;
    cbn; lra|].
  split; vm_compute; reflexivity.
Qed.
