(** * Exactly which integer strings have the right operand i (C06) *)
From Coq Require Import Lia Lra Reals ZArith.
From Flocq Require Import Core.
From Verif Require Import Base F64 Operands Spec SpecR DigitFacts OperandsFacts OperandsProps FloatProps.
Open Scope N_scope.

(** at most 53 significant binary digits *)
Definition fits_53_bits (x : N) : Prop := exists m e, x = m * 2 ^ e /\ m < 2 ^ 53.

Lemma bpow_N e : bpow radix2 (Z.of_N e) = IZR (Z.of_N (2 ^ e)).
Proof. rewrite N2Z.inj_pow. change (Z.of_N 2) with (radix_val radix2). now rewrite IZR_Zpower by lia. Qed.
Lemma fits_format x : fits_53_bits x -> generic_format radix2 (FLT_exp (-1074) 53) (IZR (Z.of_N x)).
Proof.
  intros (m & e & -> & L). apply generic_format_FLT. exists (Float radix2 (Z.of_N m) (Z.of_N e)).
  - unfold F2R. cbn [Fnum Fexp]. now rewrite bpow_N, <- mult_IZR, N2Z.inj_mul.
  - cbn [Fnum]. rewrite Z.abs_eq by lia. change (radix2 ^ 53)%Z with (Z.of_N (2 ^ 53)). lia.
  - cbn [Fexp]. lia.
Qed.
Lemma format_fits x F : generic_format radix2 (FLT_exp (-1074) 53) F -> (IZR (2 ^ 53) <= F)%R -> Zfloor F = Z.of_N x -> fits_53_bits x.
Proof.
  intros G L E. apply FLT_format_generic in G; [|reflexivity]. destruct G as [[m e] G1 G2 G3]. cbn [Fnum Fexp] in *.
  assert (P : (0 <= e)%Z).
  { destruct (Z_le_gt_dec 0 e) as [H|H]; [exact H|exfalso]. rewrite G1 in L. unfold F2R in L. cbn [Fnum Fexp] in L.
    assert (B : (bpow radix2 e <= 1)%R) by (change 1%R with (bpow radix2 0); apply bpow_le; lia).
    pose proof (bpow_gt_0 radix2 e) as B0.
    assert (A : (IZR m < IZR (2 ^ 53))%R) by (apply IZR_lt; change (2 ^ 53)%Z with (radix2 ^ 53)%Z; lia).
    assert (Z0 : (0 < IZR (2 ^ 53))%R) by (apply IZR_lt; reflexivity).
    destruct (Rle_or_lt (IZR m) 0) as [M|M].
    - assert (IZR m * bpow radix2 e <= 0)%R by nra. lra.
    - assert (IZR m * bpow radix2 e <= IZR m)%R by nra. lra. }
  assert (V : F = IZR (m * 2 ^ e)). { rewrite G1. unfold F2R. cbn [Fnum Fexp]. rewrite mult_IZR. f_equal. change 2%Z with (radix_val radix2). now rewrite IZR_Zpower. }
  rewrite V, Zfloor_IZR in E. pose proof (Z.pow_pos_nonneg 2 e ltac:(lia) P) as Q.
  exists (Z.to_N m), (Z.to_N e). assert (M : (0 <= m)%Z) by nia. split.
  - apply N2Z.inj. rewrite <- E, N2Z.inj_mul, N2Z.inj_pow, !Z2N.id by lia. reflexivity.
  - change (radix2 ^ 53)%Z with (2 ^ 53)%Z in G2. apply N2Z.inj_lt. rewrite Z2N.id by lia. change (Z.of_N (2 ^ 53)) with (2 ^ 53)%Z. lia.
Qed.
Lemma small_fits x : x <= 2 ^ 53 -> fits_53_bits x.
Proof.
  intro H. destruct (N.eq_dec x (2 ^ 53)) as [->|D]; [exists 1, 53; now split|]. exists x, 0. rewrite N.mul_1_r. split; [reflexivity|]. lia.
Qed.
Lemma C06_exactly_lemma sg i : minus_opt sg -> digits i -> i <> [] -> dval i < 2 ^ 64 ->
  exists n k, operands_from_str (sg ++ i) = Ok (mkOps n k 0 0 0 0) /\
    (k = dval i <-> fits_53_bits (dval i) \/ dval i = 2 ^ 64 - 1).
Proof.
  intros S D N L. destruct (C06_formula sg i S D N) as (n & k & E & K). exists n, k. split; [exact E|].
  set (F := round radix2 (FLT_exp (-1074) 53) ZnearestE (IZR (Z.of_N (dval i)))) in *. split.
  - intros ->. destruct (N.eq_dec (dval i) (2 ^ 64 - 1)) as [Q|Q]; [now right|left].
    destruct (N.le_gt_cases (dval i) (2 ^ 53)) as [H|H]; [now apply small_fits|].
    assert (FL : Zfloor F = Z.of_N (dval i)) by lia.
    apply (format_fits _ F); [apply generic_format_round; auto with typeclass_instances| |exact FL].
    apply Rle_trans with (IZR (Zfloor F)); [|apply Zfloor_lb]. rewrite FL. apply IZR_le. lia.
  - intros [H|H].
    + apply N2Z.inj. rewrite K. unfold F. rewrite round_generic by (auto with typeclass_instances; now apply fits_format). rewrite Zfloor_IZR. lia.
    + assert (D0 : digits (bs "18446744073709551615")) by (repeat constructor; discriminate).
      assert (N0 : bs "18446744073709551615" <> []) by discriminate.
      destruct (C06_formula [] (bs "18446744073709551615") (or_introl eq_refl) D0 N0) as (n0 & k0 & E0 & K0).
      assert (V0 : dval (bs "18446744073709551615") = dval i) by (rewrite H; vm_compute; reflexivity).
      rewrite V0 in K0. fold F in K0. rewrite <- K in K0. apply N2Z.inj in K0. subst k0.
      assert (X : match operands_from_str ([] ++ bs "18446744073709551615") with Ok po => op_i po = 2 ^ 64 - 1 | _ => True end) by (vm_compute; reflexivity).
      rewrite E0 in X. cbn [op_i] in X. now rewrite X.
Qed.
