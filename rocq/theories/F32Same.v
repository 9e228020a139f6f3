(** * The same value as f32 and as f64 or integer (C109) *)
From Coq Require Import Lia Lra Reals Floats.SpecFloat.
From Flocq Require Import Core IEEE754.BinarySingleNaN.
From Verif Require Import Base F64 Operands PluralRules Spec SpecR F64Facts DigitFacts OperandsFacts OperandsProps FloatProps Shortest
  FloatConf FloatAgree FloatAny F32Any.
Open Scope list_scope.
Open Scope N_scope.

(** close on either side *)
Lemma round_near m e y : SpecFloat.bounded 24 128 m e = true ->
  (Rabs (y - F2R (Float radix2 (Z.pos m) e)) < bpow radix2 (e - 2))%R -> rnd32 y = F2R (Float radix2 (Z.pos m) e).
Proof.
  intros B H. apply Rabs_lt_inv in H as [H1 H2]. set (x := F2R (Float radix2 (Z.pos m) e)) in *.
  destruct (Rle_or_lt y x) as [L|L]; [apply (round_close 24 128 _ m e B); fold x; lra|].
  pose proof (x_format 24 128 m e B) as Fx. fold x in Fx. apply Rle_antisym.
  - apply round_N_le_midp; auto with typeclass_instances.
    assert (P : (0 < x)%R) by (apply F2R_gt_0; reflexivity).
    rewrite succ_eq_pos by lra. rewrite ulp_neq_0 by lra. unfold cexp. 
    pose proof (x_exp 24 128 m e B) as Ex. fold x in Ex. rewrite <- Ex.
    assert (D : (bpow radix2 e = 4 * bpow radix2 (e - 2))%R).
    { replace e with (2 + (e - 2))%Z at 1 by lia. rewrite bpow_plus. reflexivity. }
    pose proof (bpow_gt_0 radix2 (e - 2)). lra.
  - apply round_ge_generic; auto with typeclass_instances. lra.
Qed.

Lemma Rnum s m e : SF2R radix2 (S754_finite s m e) = ((if s then -1 else 1) * F2R (Float radix2 (Z.pos m) e))%R.
Proof. destruct s; unfold SF2R, F2R; cbn [Fnum Fexp cond_Zopp]; [change (Z.neg m) with (- Z.pos m)%Z; rewrite opp_IZR|]; ring. Qed.

(** a decimal that rounds to the 64-bit number rounds to the 32-bit number of the same value *)
Lemma rounds_both m e m' e' d E : SpecFloat.bounded 24 128 m e = true -> SpecFloat.bounded 53 1024 m' e' = true ->
  F2R (Float radix2 (Z.pos m') e') = F2R (Float radix2 (Z.pos m) e) ->
  dec64 d E = S754_finite false m' e' -> dec32 d E = S754_finite false m e.
Proof.
  intros B B' Q H. apply (decf_iff 24 128 _ _ m e B). apply (decf_iff 53 1024 _ _ m' e' B') in H.
  apply round_near; [exact B|]. pose proof (rnd_near 53 1024 _ m' e' B' _ H) as K. rewrite Q in K.
  rewrite Rabs_minus_sym. apply Rle_lt_trans with (1 := K).
  pose proof (x_exp 24 128 m e B) as X1. pose proof (x_exp 53 1024 m' e' B') as X2. rewrite Q in X2.
  unfold SpecFloat.fexp, emin in X1, X2. 
  assert (L : (e' - 1 < e - 2)%Z) by lia. 
  replace (/ 2 * bpow radix2 e')%R with (bpow radix2 (e' - 1)); [now apply bpow_lt|].
  replace (e' - 1)%Z with (-1 + e')%Z by lia. rewrite bpow_plus. reflexivity.
Qed.
Lemma C109_lemma x y : valid32 x -> valid64 y -> is_finite_SF x = true -> is_finite_SF y = true ->
  SF2R radix2 y = SF2R radix2 x ->
  (operands_from_f32 x = operands_from_f64 y <-> exists po, operands_from_f32 x = Ok po /\ op_n po = SFabs y).
Proof.
  intros V V' F F' R. split.
  - intro H. destruct (operands_from_f64 y) as [po|m|m] eqn:Q.
    + exists po. split; [exact H|]. exact (C17_lemma y po V' F' Q).
    + exfalso. clear H. destruct y as [s|s| |s m0 e]; try discriminate F'; [destruct s; discriminate Q|].
      unfold operands_from_f64 in Q. destruct (f64_printed s m0 e V') as (d & E & T & X & P & B & M & _). rewrite T in Q.
      rewrite from_printed in Q by (auto using minus_opt_sign). discriminate Q.
    + exfalso. clear H. destruct y as [s|s| |s m0 e]; try discriminate F'; [destruct s; discriminate Q|].
      unfold operands_from_f64 in Q. destruct (f64_printed s m0 e V') as (d & E & T & X & P & B & M & _). rewrite T in Q.
      rewrite from_printed in Q by (auto using minus_opt_sign). discriminate Q.
  - intros (po & H & Hn).
    destruct x as [s|s| |s m e]; try discriminate F.
    { destruct y as [s'|s'| |s' m' e']; try discriminate F'; [destruct s, s'; reflexivity|exfalso].
      rewrite Rnum in R. cbn [SF2R] in R. assert (P : (0 < F2R (Float radix2 (Z.pos m') e'))%R) by (apply F2R_gt_0; reflexivity).
      destruct s'; lra. }
    destruct y as [s'|s'| |s' m' e']; try discriminate F'.
    { exfalso. rewrite Rnum in R. cbn [SF2R] in R. assert (P : (0 < F2R (Float radix2 (Z.pos m) e))%R) by (apply F2R_gt_0; reflexivity).
      destruct s; lra. }
    assert (Q : F2R (Float radix2 (Z.pos m') e') = F2R (Float radix2 (Z.pos m) e)).
    { rewrite !Rnum in R. assert (P : (0 < F2R (Float radix2 (Z.pos m) e))%R) by (apply F2R_gt_0; reflexivity).
      assert (P' : (0 < F2R (Float radix2 (Z.pos m') e'))%R) by (apply F2R_gt_0; reflexivity). destruct s, s'; lra. }
    destruct (f32_printed2 s m e V) as (d & E & T & X & [P P10] & M & Mx & Sh).
    destruct (f64_printed s' m' e' V') as (d' & E' & T' & X' & P' & B' & M' & Mx' & _ & Cl').
    unfold operands_from_f32 in *. unfold operands_from_f64. rewrite T in *. rewrite T'.
    rewrite from_printed in * by (auto using minus_opt_sign; lia). cbv zeta in *.
    assert (N : dec64 d E = S754_finite false m' e').
    { injection H as <-. cbn [SFabs] in Hn. destruct (E <? 0)%Z; exact Hn. }
    pose proof (Mx' _ _ N) as L1. 
    pose proof (rounds_both m e m' e' d' E' V V' Q X') as Z.
    pose proof (Mx _ _ Z) as L2. assert (E' = E) by lia. subst E'.
    assert (d = d').
    { pose proof (Cl' _ _ N ltac:(lia)) as C1. destruct Sh as (_ & _ & Sh).
      pose proof (Sh d' E ltac:(now apply nearest32_iff) ltac:(lia)) as C2. rewrite Rnum in C1, C2. rewrite Q in C1. 
      fold (dec_real d E) (dec_real d' E) in C2.
      assert (DQ : dec_real d E = dec_real d' E) by (destruct C1 as [C1|C1], C2 as [C2|C2]; lra).
      apply dec_real_inj in DQ; [|lia]. rewrite Z.sub_diag in DQ. change (Z.to_N 0) with 0 in DQ. lia. }
    subst d'. rewrite from_printed by (auto using minus_opt_sign). reflexivity.
Qed.

(** ** Integral values *)
Lemma int_rounds m e k : SpecFloat.bounded 24 128 m e = true -> F2R (Float radix2 (Z.pos m) e) = IZR (Z.of_N k) ->
  dec32 k 0 = S754_finite false m e.
Proof.
  intros B Q. apply (decf_iff 24 128 _ _ m e B). rewrite dec_real_int, <- Q.
  apply round_generic; auto with typeclass_instances. exact (x_format 24 128 m e B).
Qed.
Lemma int_exact m e k d E : SpecFloat.bounded 24 128 m e = true -> F2R (Float radix2 (Z.pos m) e) = IZR (Z.of_N k) ->
  k < 33554448 -> dec32 d E = S754_finite false m e ->
  (forall d' E', dec32 d' E' = S754_finite false m e -> (E' <= E)%Z) ->
  shortest_decimal32 d E (S754_finite false m e) ->
  (0 <= E)%Z /\ d * 10 ^ Z.to_N E = k.
Proof.
  intros B Q L X Mx Sh. pose proof (int_rounds m e k B Q) as X0. pose proof (Mx _ _ X0) as E0. split; [exact E0|].
  destruct (Z.eq_dec E 0) as [->|NE].
  { destruct Sh as (_ & _ & Sh). pose proof (Sh k 0%Z ltac:(now apply nearest32_iff) ltac:(lia)) as C.
    fold (dec_real d 0) (dec_real k 0) in C. unfold closer in C. rewrite Rnum, Rmult_1_l, Q, !dec_real_int in C.
    replace (IZR (Z.of_N k) - IZR (Z.of_N k))%R with 0%R in C by ring. rewrite Rabs_R0 in C.
    pose proof (Rabs_pos (IZR (Z.of_N d) - IZR (Z.of_N k))) as A.
    assert (Z0 : Rabs (IZR (Z.of_N d) - IZR (Z.of_N k)) = 0%R) by (destruct C as [C|C]; lra).
    rewrite <- minus_IZR, <- abs_IZR in Z0. apply eq_IZR in Z0. change (Z.to_N 0) with 0. lia. }
  set (D := d * 10 ^ Z.to_N E).
  assert (T : exists q, D = 10 * q).
  { exists (d * 10 ^ Z.to_N (E - 1)). unfold D. replace (Z.to_N E) with (N.succ (Z.to_N (E - 1))) by lia.
    rewrite N.pow_succ_r'. lia. }
  assert (XD : dec32 D 0 = S754_finite false m e).
  { rewrite <- X. apply (dec_to_float_value 24 128 _ _). rewrite dec_real_int. unfold D. now rewrite dec_real_whole. }
  assert (Nr : (Rabs (IZR (Z.of_N k) - IZR (Z.of_N D)) <= / 2 * bpow radix2 e)%R).
  { rewrite <- Q. apply (rnd_near 24 128 _ m e B). apply (decf_iff 24 128 _ _ m e B) in XD. now rewrite dec_real_int in XD. }
  rewrite <- minus_IZR, <- abs_IZR in Nr.
  destruct T as [q Tq].
  destruct (bounded32 m e B) as [M1 M2].
  assert (KE : forall j, (0 <= j)%Z -> e = j -> Z.of_N k = (Z.pos m * 2 ^ j)%Z).
  { intros j J ->. unfold F2R in Q. cbn [Fnum Fexp] in Q. rewrite <- IZR_Zpower in Q by lia. rewrite <- mult_IZR in Q.
    apply eq_IZR in Q. now rewrite <- Q. }
  assert (LE : (e <= 2)%Z).
  { destruct (Z.le_gt_cases e 2) as [K|K]; [exact K|exfalso]. specialize (M2 ltac:(lia)). specialize (KE e ltac:(lia) eq_refl).
    assert (2 ^ 3 <= 2 ^ e)%Z by (apply Z.pow_le_mono_r; lia). change (2 ^ 3)%Z with 8%Z in *. change (2 ^ 23)%Z with 8388608%Z in *. nia. }
  destruct (Z.le_gt_cases e 0) as [N0|N0].
  { assert (bpow radix2 e <= 1)%R by (change 1%R with (bpow radix2 0); now apply bpow_le).
    assert (Z.abs (Z.of_N k - Z.of_N D) < 1)%Z; [|lia]. apply lt_IZR. lra. }
  destruct (Z.eq_dec e 1) as [->|N1].
  { specialize (KE 1%Z ltac:(lia) eq_refl). change (bpow radix2 1) with 2%R in Nr.
    assert (Z.abs (Z.of_N k - Z.of_N D) <= 1)%Z by (apply le_IZR; lra). lia. }
  assert (e = 2)%Z by lia. subst e. specialize (KE 2%Z ltac:(lia) eq_refl). specialize (M2 ltac:(lia)). 
  change (bpow radix2 2) with 4%R in Nr. assert (A : (Z.abs (Z.of_N k - Z.of_N D) <= 2)%Z) by (apply le_IZR; lra).
  change (2 ^ 23)%Z with 8388608%Z in *. change (2 ^ 2)%Z with 4%Z in *.
  assert (C : D = k \/ (D = 33554430 /\ m = 8388608%positive)) by lia.
  destruct C as [C|[C ->]]; [exact C|exfalso]. rewrite C in XD. vm_compute in XD. discriminate XD.
Qed.
Lemma C109_small_lemma x k : valid32 x -> is_finite_SF x = true -> SF2R radix2 (SFabs x) = IZR (Z.of_N k) -> k < 33554448 ->
  operands_from_f32 x = Ok (operands_from_unsigned k).
Proof.
  intros V F R L. destruct x as [s|s| |s m e]; try discriminate F.
  - assert (k = 0) as ->. { cbn in R. apply (eq_IZR 0) in R. lia. } destruct s; reflexivity.
  - cbn [SFabs] in R. rewrite Rnum, Rmult_1_l in R.
    unfold operands_from_f32. destruct (f32_printed2 s m e V) as (d & E & T & X & [P P10] & M & Mx & Sh). rewrite T.
    rewrite from_printed by (auto using minus_opt_sign; lia). cbv zeta.
    destruct (int_exact m e k d E V R L X Mx Sh) as [E0 D]. destruct (Z.ltb_spec E 0) as [K|_]; [lia|].
    assert (Y : dec64 d E = f64_of_N k).
    { unfold f64_of_N. symmetry. apply (dec_to_float_value 53 1024 _ _). rewrite dec_real_int, dec_real_whole by exact E0. now rewrite D. }
    rewrite Y. unfold operands_from_unsigned. do 2 f_equal. apply f64_of_N_trunc_exact. lia.
Qed.
Lemma C109_small_select w pr x k : valid32 x -> is_finite_SF x = true -> SF2R radix2 (SFabs x) = IZR (Z.of_N k) -> k < 33554448 ->
  select w pr (InF32 x) = select w pr (InUnsigned k).
Proof. intros V F R L. unfold select. cbn [to_operands]. now rewrite (C109_small_lemma x k). Qed.
