(** * Correctness of the float model, against Flocq's real-number semantics *)
From Coq Require Import Reals Psatz Floats.SpecFloat.
From Flocq Require Import Core.Core IEEE754.BinarySingleNaN.
Require Import Flocq.Prop.Relative.
From Verif Require Import Base F64 SpecR.
Import ListNotations.
Open Scope Z_scope.

(** The real number [m * 10^e]. *)
Definition dec_real (m : N) (e : Z) : R := (IZR (Z.of_N m) * bpow radix10 e)%R.

Section Format.
Variables prec emax : Z.
Context (Hprec : Prec_gt_0 prec) (Hmax : Prec_lt_emax prec emax).
Notation fexp := (SpecFloat.fexp prec emax).

Lemma round_nearest_even_equiv s m l :
  round_nearest_even m l = choice_mode mode_NE s m l.
Proof.
  case l; [reflexivity|intro c].
  case c; [|reflexivity|reflexivity].
  unfold choice_mode, Round.cond_incr, round_nearest_even.
  now case Z.even.
Qed.

Lemma binary_round_aux_equiv sx mx ex lx :
  SpecFloat.binary_round_aux prec emax sx mx ex lx
  = binary_round_aux prec emax mode_NE sx mx ex lx.
Proof.
  unfold SpecFloat.binary_round_aux, binary_round_aux.
  set (mrse' := shr_fexp _ _ _).
  case mrse'; intros mrs' e'; simpl.
  now rewrite (round_nearest_even_equiv sx).
Qed.

Lemma pow10_frac e : (IZR (10 ^ Z.max e 0) / IZR (10 ^ Z.max (- e) 0) = bpow radix10 e)%R.
Proof.
  destruct (Z.le_ge_cases 0 e) as [H|H].
  - rewrite Z.max_l by lia. rewrite Z.max_r by lia.
    change (10 ^ 0) with 1. rewrite (IZR_Zpower radix10) by lia. unfold Rdiv. now rewrite Rinv_1, Rmult_1_r.
  - rewrite Z.max_r by lia. rewrite Z.max_l by lia.
    change (10 ^ 0) with 1. rewrite (IZR_Zpower radix10) by lia.
    unfold Rdiv. rewrite Rmult_1_l, <- bpow_opp. f_equal. lia.
Qed.

Lemma dec_to_float_correct neg p e :
  let x := (IZR (cond_Zopp neg (Zpos p)) * bpow radix10 e)%R in
  let z := dec_to_float prec emax neg (Npos p) e in
  valid_binary prec emax z = true /\
  if Rlt_bool (Rabs (round radix2 fexp ZnearestE x)) (bpow radix2 emax) then
    SF2R radix2 z = round radix2 fexp ZnearestE x /\
    is_finite_SF z = true /\ sign_SF z = neg
  else z = S754_infinity neg.
Proof.
  intros x z.
  assert (Hn : 0 < Zpos p * 10 ^ Z.max e 0) by (apply Z.mul_pos_pos; [lia|apply Z.pow_pos_nonneg; lia]).
  assert (Hd : 0 < 10 ^ Z.max (- e) 0) by (apply Z.pow_pos_nonneg; lia).
  unfold z, dec_to_float.
  remember (Zpos p * 10 ^ Z.max e 0) as nn eqn:En.
  remember (10 ^ Z.max (- e) 0) as dd eqn:Ed.
  destruct nn as [|np|np]; try lia. destruct dd as [|dp|dp]; try lia.
  pose proof (Bdiv_correct_aux prec emax Hprec Hmax mode_NE neg np 0 false dp 0) as H.
  cbv zeta in H.
  assert (Ex : (F2R (Float radix2 (cond_Zopp neg (Zpos np)) 0)
                / F2R (Float radix2 (cond_Zopp false (Zpos dp)) 0) = x)%R).
  { unfold F2R, x. cbn [Fnum Fexp cond_Zopp bpow]. rewrite !Rmult_1_r.
    rewrite <- pow10_frac, <- Ed. unfold Rdiv.
    rewrite <- Rmult_assoc. f_equal. rewrite En.
    destruct neg; cbn [cond_Zopp].
    - rewrite 2!opp_IZR, mult_IZR. rewrite Ropp_mult_distr_l. reflexivity.
    - now rewrite mult_IZR. }
  rewrite Ex in H.
  destruct (SFdiv_core_binary prec emax (Zpos np) 0 (Zpos dp) 0) as [[q ez] l].
  rewrite binary_round_aux_equiv. rewrite Bool.xorb_false_r in H.
  exact H.
Qed.

Lemma valid_dec_to_float neg m e : valid_binary prec emax (dec_to_float prec emax neg m e) = true.
Proof.
  destruct m as [|p]; [reflexivity|]. apply (dec_to_float_correct neg p e).
Qed.

(** Two valid finite floats of equal value and sign are the same. *)
Lemma SF_inj a b :
  valid_binary prec emax a = true -> valid_binary prec emax b = true ->
  is_finite_SF a = true -> is_finite_SF b = true ->
  SF2R radix2 a = SF2R radix2 b -> sign_SF a = sign_SF b -> a = b.
Proof.
  intros Va Vb Fa Fb E S.
  rewrite <- (B2SF_SF2B prec emax a Va), <- (B2SF_SF2B prec emax b Vb). f_equal.
  apply B2R_Bsign_inj.
  - now rewrite is_finite_SF2B.
  - now rewrite is_finite_SF2B.
  - now rewrite !B2R_SF2B.
  - now rewrite !Bsign_SF2B.
Qed.

(** The result only depends on the sign and the real value. *)
Lemma dec_to_float_value neg m e m' e' :
  dec_real m e = dec_real m' e' ->
  dec_to_float prec emax neg m e = dec_to_float prec emax neg m' e'.
Proof.
  unfold dec_real. intros E.
  destruct m as [|p], m' as [|p']; [reflexivity| | |].
  - exfalso. rewrite Rmult_0_l in E. symmetry in E. apply Rmult_integral in E.
    destruct E as [E|E]; [now apply eq_IZR in E|]. pose proof (bpow_gt_0 radix10 e'). lra.
  - exfalso. rewrite Rmult_0_l in E. apply Rmult_integral in E.
    destruct E as [E|E]; [now apply eq_IZR in E|]. pose proof (bpow_gt_0 radix10 e). lra.
  - destruct (dec_to_float_correct neg p e) as [V C].
    destruct (dec_to_float_correct neg p' e') as [V' C'].
    assert (Ex : (IZR (cond_Zopp neg (Zpos p)) * bpow radix10 e
                  = IZR (cond_Zopp neg (Zpos p')) * bpow radix10 e')%R).
    { change (Z.of_N (Npos p)) with (Zpos p) in E. change (Z.of_N (Npos p')) with (Zpos p') in E.
      destruct neg; cbn [cond_Zopp]; [|exact E].
      rewrite 2!opp_IZR, 2!Ropp_mult_distr_l_reverse. now f_equal. }
    rewrite Ex in C.
    destruct Rlt_bool.
    + destruct C as (C1 & C2 & C3), C' as (C1' & C2' & C3').
      apply SF_inj; auto; congruence.
    + congruence.
Qed.

(** Negating the sign negates the result. *)
Lemma dec_to_float_opp m e :
  dec_to_float prec emax true m e = SFopp (dec_to_float prec emax false m e).
Proof.
  destruct m as [|p]; [reflexivity|].
  unfold dec_to_float.
  destruct (SFdiv_core_binary _ _ _ _ _ _) as [[q ez] l].
  unfold SpecFloat.binary_round_aux.
  destruct (SpecFloat.shr_fexp prec emax q ez l) as [r1 e1].
  destruct (SpecFloat.shr_fexp prec emax _ e1 _) as [r2 e2].
  destruct (shr_m r2); try reflexivity.
  destruct (Zle_bool _ _); reflexivity.
Qed.

End Format.

(** ** binary64 *)
Global Instance prec53 : Prec_gt_0 53 := eq_refl.
Global Instance emax53 : Prec_lt_emax 53 1024 := eq_refl.
Global Instance prec24 : Prec_gt_0 24 := eq_refl.
Global Instance emax24 : Prec_lt_emax 24 128 := eq_refl.
Global Instance fexp64_valid : Valid_exp (SpecFloat.fexp 53 1024) := fexp_correct 53 1024 _.
Global Instance fexp32_valid : Valid_exp (SpecFloat.fexp 24 128) := fexp_correct 24 128 _.

Notation fexp64 := (SpecFloat.fexp 53 1024).
Notation rnd64 := (round radix2 fexp64 ZnearestE).

Lemma dec_real_ge0 m e : (0 <= dec_real m e)%R.
Proof. unfold dec_real. apply Rmult_le_pos; [apply IZR_le; lia|apply bpow_ge_0]. Qed.

Notation dec64 := (dec_to_float 53 1024 false).

(** Specification of decimal conversion without the sign. *)
Lemma dec64_correct m e :
  valid_binary 53 1024 (dec64 m e) = true /\
  (if Rlt_bool (rnd64 (dec_real m e)) (bpow radix2 1024) then
     SF2R radix2 (dec64 m e) = rnd64 (dec_real m e) /\
     is_finite_SF (dec64 m e) = true /\ sign_SF (dec64 m e) = false
   else dec64 m e = S754_infinity false).
Proof.
  destruct m as [|p].
  - split; [reflexivity|]. unfold dec_real. rewrite Rmult_0_l, round_0 by auto with typeclass_instances.
    rewrite Rlt_bool_true by apply bpow_gt_0. easy.
  - pose proof (dec_to_float_correct 53 1024 _ _ false p e) as H. cbv zeta in H.
    change (IZR (cond_Zopp false (Zpos p)) * bpow radix10 e)%R with (dec_real (Npos p) e) in H.
    rewrite (Rabs_pos_eq (rnd64 _)) in H; [exact H|].
    rewrite <- (round_0 radix2 fexp64 ZnearestE). apply round_le; auto with typeclass_instances.
    apply dec_real_ge0.
Qed.

Lemma dec64_finite m e :
  (dec_real m e <= bpow radix2 1023)%R ->
  SF2R radix2 (dec64 m e) = rnd64 (dec_real m e) /\
  is_finite_SF (dec64 m e) = true /\ sign_SF (dec64 m e) = false.
Proof.
  intros H. destruct (dec64_correct m e) as [_ C].
  rewrite Rlt_bool_true in C; [exact C|].
  apply Rle_lt_trans with (bpow radix2 1023); [|apply bpow_lt; lia].
  apply round_le_generic; auto with typeclass_instances.
  apply generic_format_bpow. unfold SpecFloat.fexp, emin. lia.
Qed.

Lemma dec_real_int k : dec_real k 0 = IZR (Z.of_N k).
Proof. unfold dec_real. cbn [bpow]. apply Rmult_1_r. Qed.

(** Integers up to 2^53 are represented exactly. *)
Lemma format_int (z : Z) : Z.abs z <= 2 ^ 53 -> generic_format radix2 fexp64 (IZR z).
Proof.
  intros H.
  destruct (Z.eq_dec (Z.abs z) (2 ^ 53)) as [E|E].
  - apply generic_format_abs_inv. rewrite <- abs_IZR, E.
    replace (IZR (2 ^ 53)) with (bpow radix2 53) by (rewrite <- IZR_Zpower by lia; reflexivity).
    apply generic_format_bpow. unfold SpecFloat.fexp, emin. lia.
  - apply generic_format_FLT. exists (Float radix2 z 0).
    + unfold F2R. cbn. now rewrite Rmult_1_r.
    + cbn [Fnum]. change (Zpower radix2 53) with (2 ^ 53). lia.
    + cbn. lia.
Qed.

Lemma rnd64_int (z : Z) : Z.abs z <= 2 ^ 53 -> rnd64 (IZR z) = IZR z.
Proof. intros H. apply round_generic; auto with typeclass_instances. now apply format_int. Qed.

Lemma IZR_bpow2 n : 0 <= n -> bpow radix2 n = IZR (2 ^ n).
Proof. intros H. now rewrite <- IZR_Zpower. Qed.

Lemma f64_of_N_exact k : (k <= 2 ^ 53)%N ->
  SF2R radix2 (f64_of_N k) = IZR (Z.of_N k) /\
  is_finite_SF (f64_of_N k) = true /\ sign_SF (f64_of_N k) = false.
Proof.
  intros H. unfold f64_of_N.
  destruct (dec64_finite k 0) as (A & B & C).
  - rewrite dec_real_int, IZR_bpow2 by lia. apply IZR_le.
    apply Z.le_trans with (2 ^ 53); [lia|]. apply Z.pow_le_mono_r; lia.
  - rewrite A, dec_real_int. rewrite rnd64_int by lia. auto.
Qed.

(** Truncation to u64 *)
Lemma float_to_u64_correct x :
  is_finite_SF x = true -> sign_SF x = false ->
  Z.of_N (float_to_u64 x) = Z.min (Zfloor (SF2R radix2 x)) (2 ^ 64 - 1).
Proof.
  intros F S. destruct x as [s|s| |s m e]; try discriminate.
  - cbn. replace (Zfloor 0) with 0; [reflexivity|]. symmetry. apply (Zfloor_IZR 0).
  - cbn in S. subst s. unfold float_to_u64, SF2R, F2R, cond_Zopp. cbn [Fnum Fexp].
    change (2 ^ 64 - 1) with (Z.of_N u64_max). rewrite N2Z.inj_min. f_equal.
    destruct e as [|p|p].
    + cbn [bpow]. rewrite Rmult_1_r, Zfloor_IZR. reflexivity.
    + rewrite IZR_bpow2 by lia. rewrite <- mult_IZR, Zfloor_IZR. rewrite N2Z.inj_mul, N2Z.inj_pow. reflexivity.
    + rewrite N2Z.inj_div, N2Z.inj_pow.
      change (Z.of_N (Npos m)) with (Zpos m). change (Z.of_N (Npos p)) with (Zpos p). change (Z.of_N 2) with 2.
      change (Zneg p) with (- Zpos p). rewrite bpow_opp, IZR_bpow2 by lia.
      symmetry. apply Zfloor_div. apply Z.pow_nonzero; lia.
Qed.

(** Float equality *)
Lemma SFeqb_correct a b :
  valid_binary 53 1024 a = true -> valid_binary 53 1024 b = true ->
  is_finite_SF a = true -> is_finite_SF b = true ->
  SFeqb a b = Req_bool (SF2R radix2 a) (SF2R radix2 b).
Proof.
  intros Va Vb Fa Fb.
  pose proof (Beqb_correct 53 1024 (SF2B a Va) (SF2B b Vb)) as H.
  rewrite !is_finite_SF2B, !B2R_SF2B in H. unfold Beqb in H. rewrite !B2SF_SF2B in H. auto.
Qed.
Lemma SFleb_correct a b :
  valid_binary 53 1024 a = true -> valid_binary 53 1024 b = true ->
  is_finite_SF a = true -> is_finite_SF b = true ->
  SFleb a b = Rle_bool (SF2R radix2 a) (SF2R radix2 b).
Proof.
  intros Va Vb Fa Fb.
  pose proof (Bleb_correct 53 1024 (SF2B a Va) (SF2B b Vb)) as H.
  rewrite !is_finite_SF2B, !B2R_SF2B in H. unfold Bleb in H. rewrite !B2SF_SF2B in H. auto.
Qed.
Lemma SFltb_correct a b :
  valid_binary 53 1024 a = true -> valid_binary 53 1024 b = true ->
  is_finite_SF a = true -> is_finite_SF b = true ->
  SFltb a b = Rlt_bool (SF2R radix2 a) (SF2R radix2 b).
Proof.
  intros Va Vb Fa Fb.
  pose proof (Bltb_correct 53 1024 (SF2B a Va) (SF2B b Vb)) as H.
  rewrite !is_finite_SF2B, !B2R_SF2B in H. unfold Bltb in H. rewrite !B2SF_SF2B in H. auto.
Qed.

Lemma valid_f64_of_N k : valid_binary 53 1024 (f64_of_N k) = true.
Proof. apply (valid_dec_to_float 53 1024 _ _). Qed.

(** A decimal [m / 10^v] with [m < 2^53] rounds to the integer [k] only if it
    is [k] ([v <= 307] keeps a nonzero value above the subnormals). *)
Lemma rnd64_is_int m v k :
  (m < 2 ^ 53)%N -> 0 <= v <= 307 ->
  rnd64 (dec_real m (- v)) = IZR (Z.of_N k) -> Z.of_N m = Z.of_N k * 10 ^ v.
Proof.
  intros Hm Hv E.
  assert (P : (0 < bpow radix10 v)%R) by apply bpow_gt_0.
  assert (X : dec_real m (- v) = (IZR (Z.of_N m) / bpow radix10 v)%R)
    by (unfold dec_real; now rewrite bpow_opp).
  assert (M0 : m = 0%N \/ (1 <= Z.of_N m)) by lia.
  destruct M0 as [->|M1].
  { unfold dec_real in E. rewrite Rmult_0_l, round_0 in E by auto with typeclass_instances.
    apply eq_IZR in E. cbn. lia. }
  assert (Xpos : (0 < dec_real m (- v))%R).
  { rewrite X. apply Rdiv_lt_0_compat; [apply IZR_lt; lia|exact P]. }
  destruct (Rle_or_lt (bpow radix2 (-1022)) (dec_real m (- v))) as [Big|Small].
  - pose proof (relative_error_N_FLT radix2 (-1074) 53 eq_refl (fun z => negb (Z.even z)) (dec_real m (- v))) as R.
    rewrite Rabs_pos_eq in R by lra.
    change (-1074 + 53 - 1) with (-1022) in R. specialize (R Big).
    change (FLT_exp (-1074) 53) with fexp64 in R.
    rewrite E in R.
    (* |k - x| <= 2^-53 x *)
    assert (D : (Rabs (IZR (Z.of_N k) - dec_real m (- v)) < / bpow radix10 v)%R).
    { eapply Rle_lt_trans; [exact R|].
      rewrite X. unfold Rdiv. rewrite <- Rmult_assoc.
      rewrite <- (Rmult_1_l (/ bpow radix10 v)) at 2.
      apply Rmult_lt_compat_r; [now apply Rinv_0_lt_compat|].
      change (-53 + 1) with (-52).
      replace (/2)%R with (bpow radix2 (-1)) by reflexivity.
      rewrite <- bpow_plus. change (-1 + -52) with (-53).
      replace 1%R with (bpow radix2 (-53) * bpow radix2 53)%R by (rewrite <- bpow_plus; reflexivity).
      apply Rmult_lt_compat_l; [apply bpow_gt_0|].
      rewrite IZR_bpow2 by lia. apply IZR_lt. lia. }
    rewrite X in D.
    assert (D2 : (Rabs (IZR (Z.of_N k * 10 ^ v - Z.of_N m)) < 1)%R).
    { rewrite minus_IZR, mult_IZR. rewrite (IZR_Zpower radix10) by lia.
      replace (IZR (Z.of_N k) * bpow radix10 v - IZR (Z.of_N m))%R
        with ((IZR (Z.of_N k) - IZR (Z.of_N m) / bpow radix10 v) * bpow radix10 v)%R by (field; lra).
      rewrite Rabs_mult, (Rabs_pos_eq (bpow radix10 v)) by lra.
      replace 1%R with (/ bpow radix10 v * bpow radix10 v)%R by (field; lra).
      now apply Rmult_lt_compat_r. }
    rewrite <- abs_IZR in D2. apply lt_IZR in D2. lia.
  - exfalso. apply Rlt_not_le in Small. apply Small.
    rewrite X. apply Rle_trans with (1 / bpow radix10 307)%R.
    + unfold Rdiv. rewrite Rmult_1_l. change (-1022) with (- (1022)). rewrite bpow_opp.
      apply Rinv_le; [apply bpow_gt_0|].
      rewrite IZR_bpow2, <- (IZR_Zpower radix10) by lia. apply IZR_le.
      apply Z.leb_le. vm_compute. reflexivity.
    + unfold Rdiv. apply Rmult_le_compat; try lra.
      * left. apply Rinv_0_lt_compat, bpow_gt_0.
      * apply IZR_le. lia.
      * apply Rinv_le; [apply bpow_gt_0|]. apply bpow_le. lia.
Qed.
