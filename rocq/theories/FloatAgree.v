(** * Floats that stand for short numerals *)
From Coq Require Import Reals Floats.SpecFloat Lra ZifyBool ZifyN ZifyNat.
From Flocq Require Import Core IEEE754.BinarySingleNaN.
From Verif Require Import Base F64 SpecR F64Facts Shortest Operands Ast Spec DigitFacts OperandsFacts OperandsProps FloatProps PluralRules.
Import ListNotations.
Open Scope Z_scope.

Section Unique.
Variables prec emax : Z.
Context (Hprec : Prec_gt_0 prec) (Hmax : Prec_lt_emax prec emax).
Notation fexp := (SpecFloat.fexp prec emax).
Notation rnd := (round radix2 fexp ZnearestE).
Notation decf := (dec_to_float prec emax false).
Local Instance fexp_valid_u : Valid_exp fexp := fexp_correct prec emax Hprec.
Local Instance fexp_mono_u : Monotone_exp fexp := fexp_monotone prec emax.

Variables (m : positive) (e : Z).
Context (Bnd : SpecFloat.bounded prec emax m e = true).
Let x : R := F2R (Float radix2 (Zpos m) e).
Let X : spec_float := S754_finite false m e.

Lemma rnd_near y : rnd y = x -> (Rabs (x - y) <= / 2 * bpow radix2 e)%R.
Proof.
  intros H. pose proof (error_le_half_ulp_round radix2 fexp (fun z => negb (Z.even z)) y) as K.
  fold rnd in K. rewrite H in K.
  assert (U : ulp radix2 fexp x = bpow radix2 e).
  { apply ulp_canonical; [easy|]. exact (canonical_bounded prec emax false m e Bnd). }
  now rewrite U in K.
Qed.

(** two decimals with the same rounding, one of them with few digits and at least as many places *)
Lemma few_digits d0 E0 d E : decf d0 E0 = X -> decf d E = X -> E0 <= E -> (d0 < 2 ^ Z.to_N (prec - 1))%N ->
  (bpow radix2 (2 - emax) <= dec_real d0 E0)%R -> dec_real d0 E0 = dec_real d E.
Proof.
  intros A B LE S Nm.
  apply (decf_iff prec emax Hprec Hmax m e Bnd) in A. apply (decf_iff prec emax Hprec Hmax m e Bnd) in B.
  fold x in A, B.
  pose proof (rnd_near _ A) as NA. pose proof (rnd_near _ B) as NB.
  assert (EM : e = mag radix2 x - prec /\ (bpow radix2 (2 - emax) <= x)%R).
  { assert (G : (bpow radix2 (2 - emax) <= x)%R).
    { rewrite <- A. apply round_ge_generic; auto with typeclass_instances.
      apply generic_format_bpow. unfold SpecFloat.fexp, emin. unfold Prec_gt_0, Prec_lt_emax in *. lia. }
    split; [|exact G].
    assert (P : (0 < x)%R) by (apply F2R_gt_0; reflexivity).
    assert (Mg : 2 - emax < mag radix2 x).
    { apply mag_gt_bpow. rewrite Rabs_pos_eq by lra. exact G. }
    pose proof (x_exp prec emax m e Bnd) as K. fold x in K. unfold SpecFloat.fexp, emin in K.
    unfold Prec_gt_0, Prec_lt_emax in *. lia. }
  destruct EM as [EM _].
  assert (P : (0 < x)%R) by (apply F2R_gt_0; reflexivity).
  assert (XG : (bpow radix2 (e + prec - 1) <= x)%R).
  { replace (e + prec - 1) with (mag radix2 x - 1) by lia. pose proof (bpow_mag_le radix2 x ltac:(lra)) as K.
    rewrite Rabs_pos_eq in K by lra. exact K. }
  destruct (Req_dec (dec_real d0 E0) (dec_real d E)) as [Q|Q]; [exact Q|exfalso].
  assert (D : (Rabs (dec_real d0 E0 - dec_real d E) <= bpow radix2 e)%R).
  { replace (dec_real d0 E0 - dec_real d E)%R with ((x - dec_real d E) - (x - dec_real d0 E0))%R by ring.
    eapply Rle_trans; [apply Rabs_triang|]. rewrite Rabs_Ropp. lra. }
  assert (G : (bpow radix10 E0 <= Rabs (dec_real d0 E0 - dec_real d E))%R).
  { replace (dec_real d E) with (dec_real (d * 10 ^ Z.to_N (E - E0)) E0) in Q |- *
      by (rewrite dec_real_shift by lia; f_equal; lia).
    unfold dec_real in *. rewrite <- Rmult_minus_distr_r, Rabs_mult, (Rabs_pos_eq (bpow _ _)) by apply bpow_ge_0.
    rewrite <- (Rmult_1_l (bpow radix10 E0)) at 1. apply Rmult_le_compat_r; [apply bpow_ge_0|].
    rewrite <- minus_IZR, <- abs_IZR. apply IZR_le.
    assert (Z.of_N d0 <> Z.of_N (d * 10 ^ Z.to_N (E - E0))) by (intros K; apply Q; now rewrite K). lia. }
  assert (T : (dec_real d0 E0 <= (IZR (2 ^ (prec - 1)) - 1) * bpow radix2 e)%R).
  { unfold dec_real. apply Rle_trans with ((IZR (2 ^ (prec - 1)) - 1) * bpow radix10 E0)%R.
    - apply Rmult_le_compat_r; [apply bpow_ge_0|]. rewrite <- minus_IZR. apply IZR_le.
      unfold Prec_gt_0 in *. assert (Z.of_N (2 ^ Z.to_N (prec - 1)) = 2 ^ (prec - 1)) by (rewrite N2Z.inj_pow, Z2N.id by lia; reflexivity).
      lia.
    - apply Rmult_le_compat_l; [|lra]. rewrite <- minus_IZR. apply IZR_le.
      assert (0 < 2 ^ (prec - 1)) by (apply Z.pow_pos_nonneg; unfold Prec_gt_0 in *; lia). lia. }
  assert (XG' : (IZR (2 ^ (prec - 1)) * bpow radix2 e <= x)%R).
  { rewrite <- IZR_bpow2 by (unfold Prec_gt_0 in *; lia). rewrite <- bpow_plus. replace (prec - 1 + e) with (e + prec - 1) by lia. exact XG. }
  pose proof (bpow_gt_0 radix2 e). apply Rabs_le_inv in NA. lra.
Qed.
End Unique.

(** ** Strings *)
Open Scope N_scope.

Lemma strip_exists d : 0 < d -> exists d0 j, d = d0 * 10 ^ j /\ d0 mod 10 <> 0.
Proof.
  revert d. apply (well_founded_ind N.lt_wf_0 (fun d => 0 < d -> exists d0 j, d = d0 * 10 ^ j /\ d0 mod 10 <> 0)).
  intros d IH P. destruct (N.eq_dec (d mod 10) 0) as [Z|Z]; [|exists d, 0; split; [rewrite N.pow_0_r; lia|exact Z]].
  destruct (IH (d / 10)) as (d0 & j & E & M).
  - apply N.div_lt; lia.
  - pose proof (N.div_mod d 10 ltac:(lia)). lia.
  - exists d0, (N.succ j). split; [|exact M]. rewrite N.pow_succ_r'.
    replace (d0 * (10 * 10 ^ j)) with (10 * (d0 * 10 ^ j)) by ring. rewrite <- E.
    pose proof (N.div_mod d 10 ltac:(lia)). lia.
Qed.
Lemma last_digit f i : digits f -> f <> [] -> without_trailing_zeros f f -> dval (i ++ f) mod 10 <> 0.
Proof.
  intros D NE [_ W]. destruct (exists_last NE) as (a & c & ->). apply digits_app in D as [_ D].
  apply digits_cons in D as [D _]. rewrite app_assoc, dval_app. cbn [List.length].
  change (10 ^ N.of_nat 1) with 10. unfold digit_char in D.
  assert (c <> 48) by (intros ->; now apply (W a)).
  assert (V : dval [c] = c - 48) by (cbn; lia). rewrite V.
  rewrite N.add_comm, N.mod_add by lia. rewrite N.mod_small; lia.
Qed.
Lemma pow_mod10 d k : (d * 10 ^ k) mod 10 <> 0 -> k = 0.
Proof.
  intros H. destruct (N.eq_dec k 0) as [Z|Z]; [exact Z|]. elim H.
  replace k with (N.succ (N.pred k)) by lia. rewrite N.pow_succ_r'.
  replace (d * (10 * 10 ^ N.pred k)) with (d * 10 ^ N.pred k * 10) by lia. apply N.mod_mul. lia.
Qed.
Lemma dec_real_inj d0 E0 d E : dec_real d0 E0 = dec_real d E -> (E0 <= E)%Z -> d0 = d * 10 ^ Z.to_N (E - E0).
Proof.
  intros H L. replace (dec_real d E) with (dec_real (d * 10 ^ Z.to_N (E - E0)) E0) in H
    by (rewrite dec_real_shift by lia; f_equal; lia).
  unfold dec_real in H. apply Rmult_eq_reg_r in H; [|pose proof (bpow_gt_0 radix10 E0); lra].
  apply eq_IZR in H. lia.
Qed.

Section Agree.
Variables prec emax : Z.
Context (Hprec : Prec_gt_0 prec) (Hmax : Prec_lt_emax prec emax).
Context (Bprec : (prec <= 53)%Z) (Bemax : (emax <= 1024)%Z) (Bemin : (-1074 <= 3 - emax - prec)%Z).
Notation decf := (dec_to_float prec emax false).

Lemma agree m e sg i f d k : SpecFloat.bounded prec emax m e = true ->
  minus_opt sg -> digits i -> digits f -> i <> [] -> (f <> [] -> without_trailing_zeros f f) ->
  dval (i ++ f) = d * 10 ^ k -> d < 2 ^ Z.to_N (prec - 1) ->
  decf (dval (i ++ f)) (- Z.of_nat (List.length f)) = S754_finite false m e ->
  (bpow radix2 (2 - emax) <= dec_real (dval (i ++ f)) (- Z.of_nat (List.length f)))%R ->
  exists d' E', shortest prec emax m e = Some (d', E') /\
  operands_from_str (sg ++ digits_to_dec_str (dec_of_N d') E') = operands_from_str (sg ++ numeral_text i f).
Proof.
  intros B S Di Df Ni W ED Ld X Nm.
  destruct (shortest_result prec emax _ _ Bprec Bemax Bemin m e B) as (d' & E' & H & A1 & A2 & A3 & _ & A4 & A5 & _).
  exists d', E'. split; [exact H|].
  set (v := Z.of_nat (List.length f)) in *. set (dd := dval (i ++ f)) in *.
  assert (P : 0 < dd).
  { destruct (N.eq_0_gt_0_cases dd) as [Z|Z]; [|exact Z]. rewrite Z in X. discriminate X. }
  assert (Pd : 0 < d) by (destruct (N.eq_0_gt_0_cases d) as [Z|Z]; [rewrite Z in ED; lia|exact Z]).
  destruct (strip_exists d Pd) as (d0 & j & Ed & M0).
  set (E0 := (Z.of_N j + Z.of_N k - v)%Z).
  assert (RR : dec_real d0 E0 = dec_real dd (- v)).
  { rewrite ED, Ed, <- N.mul_assoc, <- N.pow_add_r. unfold E0.
    replace (j + k) with (Z.to_N (Z.of_N j + Z.of_N k)) by lia. rewrite dec_real_shift by lia. f_equal. lia. }
  assert (X0 : decf d0 E0 = S754_finite false m e).
  { rewrite <- X. now apply (dec_to_float_value prec emax _ _). }
  assert (LE : (E0 <= E')%Z) by now apply A5 with d0.
  assert (Q : dec_real d0 E0 = dec_real d' E').
  { apply (few_digits prec emax Hprec Hmax m e B); auto.
    - assert (0 < 10 ^ j) by (apply N.neq_0_lt_0, N.pow_nonzero; lia). nia.
    - rewrite RR. exact Nm. }
  apply dec_real_inj in Q; [|exact LE].
  assert (K : Z.to_N (E' - E0) = 0) by (apply (pow_mod10 d'); now rewrite <- Q).
  assert (E' = E0) by lia. subst E'. rewrite K, N.pow_0_r, N.mul_1_r in Q. subst d'.
  rewrite from_printed by auto. cbv zeta.
  assert (D64 : dec64 d0 E0 = dec64 dd (- v)) by now apply (dec_to_float_value 53 1024 _ _).
  destruct (list_eq_dec N.eq_dec f []) as [->|NF].
  - unfold numeral_text. rewrite app_nil_r. rewrite from_str_int by auto.
    assert (V0 : v = 0%Z) by reflexivity. destruct (Z.ltb_spec E0 0) as [L|L]; [unfold E0 in L; lia|].
    unfold dd in D64. rewrite app_nil_r in D64. rewrite V0 in D64. change (- 0)%Z with 0%Z in D64.
    unfold f64_of_N. now rewrite D64.
  - assert (M10 := last_digit f i Df NF (W NF)). fold dd in M10. rewrite ED in M10.
    assert (k = 0) by now apply (pow_mod10 d). subst k. rewrite N.pow_0_r, N.mul_1_r in ED, M10.
    rewrite Ed in M10. assert (j = 0) by now apply (pow_mod10 d0). subst j. rewrite N.pow_0_r, N.mul_1_r in Ed.
    assert (Dd : dd = d0) by lia.
    assert (Lf : (0 < v)%Z) by (unfold v; destruct f; [easy|cbn [List.length]; lia]).
    assert (Ev : E0 = (- v)%Z) by (unfold E0; lia). rewrite Ev in *.
    destruct (Z.ltb_spec (- v) 0); [|lia].
    assert (NM : numeral_text i f = i ++ [46] ++ f) by (unfold numeral_text; destruct f; [easy|reflexivity]). rewrite NM.
    destruct (dval_parts i f dd eq_refl).
    rewrite (from_str_frac sg i f f) by (auto; lia). fold dd v. rewrite <- D64.
    replace (N.of_nat (List.length f)) with (Z.to_N (- - v)) by (unfold v; lia).
    assert (F := dval_lt f Df).
    assert (V : dd = dval i * 10 ^ N.of_nat (List.length f) + dval f) by apply dval_app.
    replace (N.of_nat (List.length f)) with (Z.to_N (- - v)) in F, V by (unfold v; lia).
    assert (Q : d0 / 10 ^ Z.to_N (- - v) = dval i /\ d0 mod 10 ^ Z.to_N (- - v) = dval f).
    { rewrite <- Dd, V. rewrite (N.add_comm (_ * _)).
      split; [rewrite N.div_add, N.div_small by lia; lia|rewrite N.mod_add, N.mod_small by lia; reflexivity]. }
    destruct Q as [-> ->]. reflexivity.
Qed.
End Agree.

(** ** C74 *)
Lemma exact_dec d v : exact_value d v = dec_real d (- Z.of_nat v).
Proof.
  unfold exact_value, dec_real, Rdiv. rewrite bpow_opp. f_equal. f_equal.
  rewrite <- (IZR_Zpower radix10) by lia. reflexivity.
Qed.
Lemma normal_range (d : N) (v : nat) : 0 < d -> (v <= 307)%nat ->
  (bpow radix2 (2 - 1024) <= dec_real d (- Z.of_nat v))%R.
Proof.
  intros P L. apply Rle_trans with (bpow radix10 (- Z.of_nat v)).
  - apply Rle_trans with (bpow radix10 (Z.opp 307)); [|apply bpow_le; lia].
    rewrite (bpow_opp radix10 307), (bpow_opp radix2 1022 : bpow radix2 (2 - 1024) = _).
    apply Rinv_le; [apply bpow_gt_0|]. rewrite <- (IZR_Zpower radix10), <- (IZR_Zpower radix2) by lia.
    apply IZR_le. now vm_compute.
  - unfold dec_real. rewrite <- (Rmult_1_l (bpow radix10 _)) at 1. apply Rmult_le_compat_r; [apply bpow_ge_0|].
    apply (IZR_le 1). lia.
Qed.
Lemma normal_range32 (d : N) (v : nat) : 0 < d -> (v <= 37)%nat ->
  (bpow radix2 (2 - 128) <= dec_real d (- Z.of_nat v))%R.
Proof.
  intros P L. apply Rle_trans with (bpow radix10 (- Z.of_nat v)).
  - apply Rle_trans with (bpow radix10 (Z.opp 37)); [|apply bpow_le; lia].
    rewrite (bpow_opp radix10 37), (bpow_opp radix2 126 : bpow radix2 (2 - 128) = _).
    apply Rinv_le; [apply bpow_gt_0|]. rewrite <- (IZR_Zpower radix10), <- (IZR_Zpower radix2) by lia.
    apply IZR_le. now vm_compute.
  - unfold dec_real. rewrite <- (Rmult_1_l (bpow radix10 _)) at 1. apply Rmult_le_compat_r; [apply bpow_ge_0|].
    apply (IZR_le 1). lia.
Qed.

Lemma zero_numeral sg i f : minus_opt sg -> digits i -> digits f -> i <> [] -> (f <> [] -> without_trailing_zeros f f) ->
  dval (i ++ f) = 0 -> operands_from_str (sg ++ numeral_text i f) = Ok (mkOps (S754_zero false) 0 0 0 0 0).
Proof.
  intros S Di Df Ni W Z. destruct (list_eq_dec N.eq_dec f []) as [->|NF].
  - unfold numeral_text. rewrite app_nil_r in *. rewrite from_str_int by auto. now rewrite Z.
  - elim (last_digit f i Df NF (W NF)). now rewrite Z.
Qed.
Lemma C74_f64_lemma (neg : bool) i f d k y : digits i -> digits f -> i <> [] -> (f <> [] -> without_trailing_zeros f f) ->
  dval (i ++ f) = d * 10 ^ k -> d < 2 ^ 52 -> (List.length f <= 307)%nat ->
  nearest64 (exact_value (dval (i ++ f)) (List.length f)) y ->
  operands_from_f64 (signed_f neg y) = operands_from_str ((if neg then bs "-" else []) ++ numeral_text i f).
Proof.
  intros Di Df Ni W E Ld Lf H. rewrite exact_dec in H. apply nearest64_dec in H.
  assert (V : valid64 y) by (rewrite <- H; exact (proj1 (dec64_correct _ _))).
  assert (SG := minus_opt_sign neg). set (sg := if neg then bs "-" else []) in *.
  destruct (N.eq_0_gt_0_cases (dval (i ++ f))) as [Z|Z].
  { rewrite zero_numeral by auto. rewrite Z in H. change (dec64 0 _) with (S754_zero false) in H. subst y.
    destruct neg; reflexivity. }
  destruct y as [s|s| |s m e].
  - exfalso. pose proof (normal_range _ _ Z Lf) as K. destruct (dec64_correct (dval (i ++ f)) (- Z.of_nat (List.length f))) as [_ C].
    rewrite H in C. destruct (Rlt_bool _ _) in C; [|discriminate]. destruct C as [C _]. cbn in C.
    assert (G : (bpow radix2 (2 - 1024) <= rnd64 (dec_real (dval (i ++ f)) (- Z.of_nat (List.length f))))%R).
    { apply round_ge_generic; auto with typeclass_instances. apply generic_format_bpow. cbn. lia. }
    pose proof (bpow_gt_0 radix2 (2 - 1024)). lra.
  - destruct (list_eq_dec N.eq_dec f []) as [->|NF].
    + unfold numeral_text. rewrite app_nil_r in *. rewrite from_str_int by auto.
      cbn [List.length] in H. change (- Z.of_nat 0)%Z with 0%Z in H. unfold f64_of_N. rewrite H.
      assert (s = false) as ->.
      { destruct (dec64_correct (dval i) 0) as [_ C]. rewrite H in C. destruct (Rlt_bool _ _) in C; [|now injection C].
        now destruct C as (_ & C & _). }
      destruct neg; reflexivity.
    + exfalso. assert (M := last_digit f i Df NF (W NF)). rewrite E in M. apply pow_mod10 in M. subst k.
      rewrite N.pow_0_r, N.mul_1_r in E.
      destruct (dec64_correct (dval (i ++ f)) (- Z.of_nat (List.length f))) as [_ C]. rewrite H in C.
      destruct (Rlt_bool_spec (rnd64 (dec_real (dval (i ++ f)) (- Z.of_nat (List.length f)))) (bpow radix2 1024)) as [L|L].
      * now destruct C as (_ & C & _).
      * assert (G : (rnd64 (dec_real (dval (i ++ f)) (- Z.of_nat (List.length f))) <= bpow radix2 52)%R).
        { apply round_le_generic; auto with typeclass_instances; [apply generic_format_bpow; cbn; lia|].
          unfold dec_real. apply Rle_trans with (IZR (Z.of_N (dval (i ++ f))) * 1)%R.
          - apply Rmult_le_compat_l; [apply (IZR_le 0); lia|]. apply (bpow_le radix10 _ 0). lia.
          - rewrite Rmult_1_r, IZR_bpow2 by lia. apply IZR_le. lia. }
        pose proof (bpow_lt radix2 52 1024 ltac:(lia)). lra.
  - exfalso. destruct (dec64_correct (dval (i ++ f)) (- Z.of_nat (List.length f))) as [_ C]. rewrite H in C.
    destruct (Rlt_bool _ _) in C; [|discriminate]. now destruct C as (_ & C & _).
  - assert (s = false) as ->.
    { destruct (dec64_correct (dval (i ++ f)) (- Z.of_nat (List.length f))) as [_ C]. rewrite H in C.
      destruct (Rlt_bool _ _) in C; [|discriminate]. now destruct C as (_ & _ & C). }
    destruct (agree 53 1024 _ _ ltac:(lia) ltac:(lia) ltac:(lia) m e sg i f d k) as (d' & E' & Sh & A); auto.
    { now apply normal_range. }
    refine (eq_trans _ A). unfold operands_from_f64, f64_to_string, float_to_string, sg.
    destruct neg; cbn [signed_f SFopp negb]; rewrite Sh; reflexivity.
Qed.

Lemma C74_f32_lemma (neg : bool) i f d k y : digits i -> digits f -> i <> [] -> (f <> [] -> without_trailing_zeros f f) ->
  dval (i ++ f) = d * 10 ^ k -> d < 2 ^ 23 -> (List.length f <= 37)%nat -> is_finite_SF y = true ->
  nearest32 (exact_value (dval (i ++ f)) (List.length f)) y ->
  operands_from_f32 (signed_f neg y) = operands_from_str ((if neg then bs "-" else []) ++ numeral_text i f).
Proof.
  intros Di Df Ni W E Ld Lf F H. rewrite exact_dec in H.
  unfold nearest32 in H. cbv zeta in H. change (FLT_exp (-149) 24) with (SpecFloat.fexp 24 128) in H.
  destruct H as [(LT & _ & SG0 & RV & V)|[_ ->]]; [|discriminate F].
  assert (SG := minus_opt_sign neg). set (sg := if neg then bs "-" else []) in *.
  destruct (N.eq_0_gt_0_cases (dval (i ++ f))) as [Z|Z].
  { refine (eq_trans _ (eq_sym (zero_numeral sg i f SG Di Df Ni W Z))). rewrite Z in RV.
    assert (y = S754_zero false) as ->.
    { apply (SF_inj 24 128); auto. rewrite RV. unfold dec_real. rewrite Rmult_0_l. cbn [SF2R].
      apply round_0. auto with typeclass_instances. }
    destruct neg; reflexivity. }
  destruct y as [s|s| |s m e]; try discriminate F.
  - exfalso. pose proof (normal_range32 _ _ Z Lf) as K. cbn in RV.
    assert (G : (bpow radix2 (2 - 128) <= round radix2 (SpecFloat.fexp 24 128) ZnearestE
       (dec_real (dval (i ++ f)) (- Z.of_nat (List.length f))))%R).
    { apply round_ge_generic; auto with typeclass_instances. apply generic_format_bpow. cbn. lia. }
    pose proof (bpow_gt_0 radix2 (2 - 128)). lra.
  - cbn in SG0. subst s.
    destruct (agree 24 128 _ _ ltac:(lia) ltac:(lia) ltac:(lia) m e sg i f d k) as (d' & E' & Sh & A); auto.
    { apply (decf_iff 24 128 _ _ m e V). symmetry. exact RV. }
    { now apply normal_range32. }
    refine (eq_trans _ A). unfold operands_from_f32, f32_to_string, float_to_string, sg.
    destruct neg; cbn [signed_f SFopp negb]; rewrite Sh; reflexivity.
Qed.

(** ** C75 *)
Lemma C75_lemma (neg : bool) x y : x < 2 ^ 53 -> nearest64 (IZR (Z.of_N x)) y ->
  operands_from_f64 (signed_f neg y) = Ok (operands_from_unsigned x).
Proof.
  intros L H. rewrite <- (dec_real_int x) in H. apply nearest64_dec in H.
  assert (V : valid64 y) by (rewrite <- H; exact (proj1 (dec64_correct _ _))).
  assert (operands_from_f64 (signed_f neg y) = operands_from_f64 y) as -> by (destruct neg; [now apply C19_lemma|reflexivity]).
  unfold operands_from_unsigned. unfold f64_of_N. rewrite H.
  destruct (dec64_correct x 0) as [_ C]. rewrite H in C. rewrite dec_real_int, rnd64_int in C by lia.
  destruct (Rlt_bool_spec (IZR (Z.of_N x)) (bpow radix2 1024)) as [Q|Q]; [|exfalso].
  2: { rewrite IZR_bpow2 in Q by lia. apply le_IZR in Q. revert L. clear - Q. intros.
       assert (2 ^ 53 < 2 ^ 1024)%Z by now vm_compute. lia. }
  destruct C as (Rv & Fi & Sg). destruct y as [s|s| |s m e]; try discriminate Fi.
  - cbn in Sg. subst s. cbn in Rv. apply eq_IZR in Rv. assert (x = 0) as -> by lia. reflexivity.
  - cbn in Sg. subst s. unfold operands_from_f64.
    destruct (f64_printed false m e V) as (d & E & -> & X & P & B & M & Mx & _).
    rewrite from_printed by (auto; now left). cbv zeta. rewrite X.
    assert (0 <= E)%Z by now apply (Mx x).
    destruct (Z.ltb_spec E 0); [lia|]. do 2 f_equal. rewrite <- H. apply (f64_of_N_trunc_exact x). lia.
Qed.
Lemma C75_select_lemma w pr neg x y : x < 2 ^ 53 -> nearest64 (IZR (Z.of_N x)) y ->
  select w pr (InF64 (signed_f neg y)) = select w pr (InUnsigned x).
Proof. intros L H. unfold select. cbn [to_operands]. now rewrite (C75_lemma neg x y). Qed.
