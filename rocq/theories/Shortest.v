(** * The float [Display] model: it always finds a shortest round-trip decimal *)
From Coq Require Import Reals Psatz Floats.SpecFloat.
From Flocq Require Import Core.Core IEEE754.BinarySingleNaN.
From Verif Require Import Base F64 SpecR F64Facts.
Import ListNotations.
Open Scope Z_scope.

Lemma dec_real_le a b E : (a <= b)%N -> (dec_real a E <= dec_real b E)%R.
Proof. intros H. unfold dec_real. apply Rmult_le_compat_r; [apply bpow_ge_0|apply IZR_le; lia]. Qed.
Lemma dec_real_le_inv a b E : (dec_real a E < dec_real b E)%R -> (a < b)%N.
Proof.
  intros H. unfold dec_real in H. apply Rmult_lt_reg_r in H; [|apply bpow_gt_0]. apply lt_IZR in H. lia.
Qed.
Lemma dec_real_pos d E : (0 < d)%N -> (0 < dec_real d E)%R.
Proof. intros H. unfold dec_real. apply Rmult_lt_0_compat; [apply IZR_lt; lia|apply bpow_gt_0]. Qed.
Lemma dec_real_shift d E k : 0 <= k -> dec_real (d * 10 ^ Z.to_N k) E = dec_real d (E + k).
Proof.
  intros H. unfold dec_real. rewrite N2Z.inj_mul, mult_IZR, N2Z.inj_pow, Z2N.id by lia.
  change (Z.of_N 10) with (radix_val radix10). rewrite IZR_Zpower by lia.
  rewrite Rmult_assoc, <- bpow_plus. do 2 f_equal. lia.
Qed.

Section Scan.
Variables prec emax : Z.
Context (Hprec : Prec_gt_0 prec) (Hmax : Prec_lt_emax prec emax).
Context (Bprec : prec <= 53) (Bemax : emax <= 1024) (Bemin : -1074 <= 3 - emax - prec).
Notation fexp := (SpecFloat.fexp prec emax).
Notation rnd := (round radix2 fexp ZnearestE).
Notation decf := (dec_to_float prec emax false).
Local Instance fexp_valid : Valid_exp fexp := fexp_correct prec emax Hprec.

Variables (m : positive) (e : Z).
Context (Bnd : SpecFloat.bounded prec emax m e = true).
Let x : R := F2R (Float radix2 (Zpos m) e).
Let X : spec_float := S754_finite false m e.

Lemma x_pos : (0 < x)%R.
Proof. apply F2R_gt_0. reflexivity. Qed.
Lemma x_canon : canonical radix2 fexp (Float radix2 (Zpos m) e).
Proof. exact (canonical_bounded prec emax false m e Bnd). Qed.
Lemma x_format : generic_format radix2 fexp x.
Proof. apply generic_format_canonical, x_canon. Qed.
Lemma x_exp : e = fexp (mag radix2 x).
Proof. exact x_canon. Qed.
Lemma x_lt_prec : (x < bpow radix2 (e + prec))%R.
Proof.
  apply Rlt_le_trans with (bpow radix2 (mag radix2 x)).
  - pose proof (bpow_mag_gt radix2 x) as H. rewrite Rabs_pos_eq in H; [exact H|]. left. apply x_pos.
  - apply bpow_le. pose proof x_exp as H. unfold SpecFloat.fexp in H. lia.
Qed.
Lemma x_ge : (bpow radix2 e <= x)%R.
Proof. unfold x, F2R. cbn [Fnum Fexp]. rewrite <- (Rmult_1_l (bpow radix2 e)) at 1.
  apply Rmult_le_compat_r; [apply bpow_ge_0|apply IZR_le; lia]. Qed.
Lemma e_ge : -1074 <= e.
Proof. pose proof x_exp as H. unfold SpecFloat.fexp, emin in H. lia. Qed.
Lemma x_lt_emax : (x < bpow radix2 emax)%R.
Proof. apply (bounded_lt_emax prec emax); exact Bnd. Qed.

(** decimals that round to [x] *)
Lemma decf_iff d E : decf d E = X <-> rnd (dec_real d E) = x.
Proof.
  destruct d as [|p].
  - split.
    + intros H. discriminate H.
    + unfold dec_real. rewrite Rmult_0_l, round_0 by auto with typeclass_instances.
      intros H. pose proof x_pos. lra.
  - destruct (dec_to_float_correct prec emax Hprec Hmax false p E) as [V C].
    change (IZR (cond_Zopp false (Zpos p)) * bpow radix10 E)%R with (dec_real (Npos p) E) in C.
    split; intros H.
    + rewrite H in C. destruct (Rlt_bool _ _) in C; [|discriminate C].
      destruct C as [C _]. rewrite <- C. reflexivity.
    + rewrite H in C. rewrite Rlt_bool_true in C.
      * destruct C as (C1 & C2 & C3). apply (SF_inj prec emax); auto.
      * rewrite Rabs_pos_eq by (left; apply x_pos). apply x_lt_emax.
Qed.

Lemma sf_eqb_iff y : sf_eqb y X = true <-> y = X.
Proof.
  unfold X. destruct y as [s|s| |s m' e']; cbn [sf_eqb]; try (split; congruence).
  destruct s; cbn [Bool.eqb andb]; [split; congruence|].
  rewrite Bool.andb_true_iff, Pos.eqb_eq, Z.eqb_eq. split; [intros [-> ->]; reflexivity|intros K; injection K; auto].
Qed.

(** close from below *)
Lemma round_close y : (x - bpow radix2 (e - 2) < y <= x)%R -> rnd y = x.
Proof.
  intros [H1 H2]. apply Rle_antisym.
  - apply round_le_generic; auto with typeclass_instances. apply x_format.
  - apply round_N_ge_midp; auto with typeclass_instances; [apply x_format|].
    assert (P : (pred radix2 fexp x <= x - bpow radix2 (e - 1))%R).
    { rewrite pred_eq_pos by (left; apply x_pos). unfold pred_pos.
      destruct (Req_bool_spec x (bpow radix2 (mag radix2 x - 1))).
      - assert (bpow radix2 (e - 1) <= bpow radix2 (fexp (mag radix2 x - 1)))%R; [|lra].
        apply bpow_le. pose proof x_exp as E. unfold SpecFloat.fexp in *. lia.
      - rewrite ulp_neq_0 by (pose proof x_pos; lra). unfold cexp. rewrite <- x_exp.
        assert (bpow radix2 (e - 1) <= bpow radix2 e)%R; [|lra]. apply bpow_le. lia. }
    assert (D : (bpow radix2 (e - 1) = 2 * bpow radix2 (e - 2))%R).
    { replace (e - 1) with (1 + (e - 2)) by lia. rewrite bpow_plus. reflexivity. }
    lra.
Qed.

(** the two candidates at exponent [E] *)
Definition cand_num (E : Z) : N := frac_num m e * 10 ^ Z.to_N (- E).
Definition cand_den (E : Z) : N := frac_den e * 10 ^ Z.to_N E.
Definition cand_lo (E : Z) : N := cand_num E / cand_den E.

Lemma cand_den_pos E : (0 < cand_den E)%N.
Proof.
  unfold cand_den, frac_den. apply N.mul_pos_pos; apply N.neq_0_lt_0, N.pow_nonzero; lia.
Qed.
Lemma pow_split (b : radix) z :
  (IZR (Z.of_N (Z.to_N (radix_val b) ^ Z.to_N z)) * / IZR (Z.of_N (Z.to_N (radix_val b) ^ Z.to_N (- z))) = bpow b z)%R.
Proof.
  assert (Hb := radix_gt_0 b).
  rewrite !N2Z.inj_pow, Z2N.id by lia.
  destruct (Z.le_ge_cases 0 z) as [H|H].
  - replace (Z.to_N (- z)) with 0%N by lia. rewrite Z2N.id by lia.
    change (Z.of_N 0) with 0. rewrite Z.pow_0_r, IZR_Zpower by lia. field.
  - replace (Z.to_N z) with 0%N by lia. rewrite Z2N.id by lia.
    change (Z.of_N 0) with 0. rewrite Z.pow_0_r, IZR_Zpower by lia. rewrite Rmult_1_l, <- bpow_opp.
    f_equal. lia.
Qed.
Lemma cand_frac E : (IZR (Z.of_N (cand_num E)) = x * bpow radix10 (- E) * IZR (Z.of_N (cand_den E)))%R.
Proof.
  unfold cand_num, cand_den, frac_num, frac_den, x, F2R. cbn [Fnum Fexp].
  rewrite !N2Z.inj_mul, !mult_IZR.
  change (Z.of_N (Npos m)) with (Zpos m).
  pose proof (pow_split radix2 e) as H2. pose proof (pow_split radix10 (- E)) as H10.
  rewrite Z.opp_involutive in H10.
  change (Z.to_N radix2) with 2%N in H2. change (Z.to_N radix10) with 10%N in H10.
  rewrite <- H2, <- H10.
  assert (A : forall b z, (b <> 0)%N -> (IZR (Z.of_N (b ^ z)) <> 0)%R).
  { intros b z Hb K. apply eq_IZR in K. assert (b ^ z = 0)%N by lia. revert H. apply N.pow_nonzero. exact Hb. }
  field. split; apply A; lia.
Qed.
Lemma cand_bounds E : (dec_real (cand_lo E) E <= x < dec_real (cand_lo E + 1) E)%R.
Proof.
  assert (P := cand_den_pos E).
  assert (PR : (0 < IZR (Z.of_N (cand_den E)))%R) by (apply IZR_lt; lia).
  assert (Q : (0 < bpow radix10 E)%R) by apply bpow_gt_0.
  assert (F := cand_frac E).
  assert (T : (x = IZR (Z.of_N (cand_num E)) / IZR (Z.of_N (cand_den E)) * bpow radix10 E)%R).
  { rewrite F. rewrite bpow_opp. field. split; lra. }
  assert (D := N.div_mod (cand_num E) (cand_den E) ltac:(lia)).
  assert (M := N.mod_lt (cand_num E) (cand_den E) ltac:(lia)).
  fold (cand_lo E) in D.
  unfold dec_real. split.
  - rewrite T. apply Rmult_le_compat_r; [lra|].
    apply Rmult_le_reg_r with (IZR (Z.of_N (cand_den E))); [lra|].
    unfold Rdiv. rewrite Rmult_assoc, Rinv_l, Rmult_1_r by lra.
    rewrite <- mult_IZR. apply IZR_le. nia.
  - rewrite T. apply Rmult_lt_compat_r; [lra|].
    apply Rmult_lt_reg_r with (IZR (Z.of_N (cand_den E))); [lra|].
    unfold Rdiv. rewrite Rmult_assoc, Rinv_l, Rmult_1_r by lra.
    rewrite <- mult_IZR. apply IZR_lt. nia.
Qed.

Definition cand_ok (d : N) (E : Z) : Prop := rnd (dec_real d E) = x.

Definition choice (d : N) (E : Z) : Prop := forall d', cand_ok d' E -> closer x (dec_real d E) (dec_real d' E).
Lemma cand_rem E : (x - dec_real (cand_lo E) E = IZR (Z.of_N (cand_num E mod cand_den E)) / IZR (Z.of_N (cand_den E)) * bpow radix10 E)%R.
Proof.
  assert (P := cand_den_pos E). assert (PR : (0 < IZR (Z.of_N (cand_den E)))%R) by (apply IZR_lt; lia).
  assert (Q : (0 < bpow radix10 E)%R) by apply bpow_gt_0. assert (F := cand_frac E).
  assert (T : (x = IZR (Z.of_N (cand_num E)) / IZR (Z.of_N (cand_den E)) * bpow radix10 E)%R).
  { rewrite F. rewrite bpow_opp. field. split; lra. }
  assert (D := N.div_mod (cand_num E) (cand_den E) ltac:(lia)). fold (cand_lo E) in D.
  assert (D' : (IZR (Z.of_N (cand_num E)) = IZR (Z.of_N (cand_den E)) * IZR (Z.of_N (cand_lo E)) + IZR (Z.of_N (cand_num E mod cand_den E)))%R).
  { rewrite <- mult_IZR, <- plus_IZR. f_equal. lia. }
  rewrite T, D'. unfold dec_real. field. lra.
Qed.
Lemma dec_real_succ d E : (dec_real (d + 1) E = dec_real d E + bpow radix10 E)%R.
Proof. unfold dec_real. rewrite N2Z.inj_add, plus_IZR. change (IZR (Z.of_N 1)) with 1%R. ring. Qed.
Lemma dec_real_lt a b E : (a < b)%N -> (dec_real a E < dec_real b E)%R.
Proof. intros H. unfold dec_real. apply Rmult_lt_compat_r; [apply bpow_gt_0|apply IZR_lt; lia]. Qed.
Lemma half E : let r := (cand_num E mod cand_den E)%N in
  ((2 * r < cand_den E)%N -> (x - dec_real (cand_lo E) E < dec_real (cand_lo E + 1) E - x)%R) /\
  ((cand_den E <= 2 * r)%N -> (dec_real (cand_lo E + 1) E - x <= x - dec_real (cand_lo E) E)%R).
Proof.
  cbv zeta. set (r := (cand_num E mod cand_den E)%N). assert (R := cand_rem E). fold r in R.
  assert (P := cand_den_pos E). assert (PR : (0 < IZR (Z.of_N (cand_den E)))%R) by (apply IZR_lt; lia).
  assert (Q : (0 < bpow radix10 E)%R) by apply bpow_gt_0. assert (S := dec_real_succ (cand_lo E) E).
  assert (K : (IZR (Z.of_N r) / IZR (Z.of_N (cand_den E)) * bpow radix10 E * IZR (Z.of_N (cand_den E)) = IZR (Z.of_N r) * bpow radix10 E)%R) by (field; lra).
  split; intros H.
  - assert (H2 : (2 * IZR (Z.of_N r) < IZR (Z.of_N (cand_den E)))%R) by (rewrite <- mult_IZR; apply IZR_lt; lia).
    assert (G : (2 * (x - dec_real (cand_lo E) E) < bpow radix10 E)%R); [|lra].
    apply Rmult_lt_reg_r with (IZR (Z.of_N (cand_den E))); [lra|]. rewrite R. nra.
  - assert (H2 : (IZR (Z.of_N (cand_den E)) <= 2 * IZR (Z.of_N r))%R) by (rewrite <- mult_IZR; apply IZR_le; lia).
    assert (G : (bpow radix10 E <= 2 * (x - dec_real (cand_lo E) E))%R); [|lra].
    apply Rmult_le_reg_r with (IZR (Z.of_N (cand_den E))); [lra|]. rewrite R. nra.
Qed.
Lemma cand_above d E : (cand_lo E + 1 <= d)%N -> cand_ok d E -> cand_ok (cand_lo E + 1) E.
Proof.
  intros L H. unfold cand_ok in *. destruct (cand_bounds E) as [B1 B2]. apply Rle_antisym.
  - rewrite <- H. apply round_le; auto with typeclass_instances. now apply dec_real_le.
  - apply round_ge_generic; auto with typeclass_instances; [apply x_format|lra].
Qed.
Lemma cand_below d E : (d <= cand_lo E)%N -> cand_ok d E -> cand_ok (cand_lo E) E.
Proof.
  intros L H. unfold cand_ok in *. destruct (cand_bounds E) as [B1 B2]. apply Rle_antisym.
  - apply round_le_generic; auto with typeclass_instances. apply x_format.
  - rewrite <- H. apply round_le; auto with typeclass_instances. now apply dec_real_le.
Qed.
Lemma choose_lo E : (~ cand_ok (cand_lo E + 1) E \/ (2 * (cand_num E mod cand_den E) < cand_den E)%N) -> choice (cand_lo E) E.
Proof.
  intros C d' O. destruct (cand_bounds E) as [B1 B2]. unfold closer.
  rewrite (Rabs_left1 (dec_real (cand_lo E) E - x)) by lra. destruct (N.le_gt_cases d' (cand_lo E)) as [L|L].
  - assert (dec_real d' E <= dec_real (cand_lo E) E)%R by now apply dec_real_le. rewrite (Rabs_left1 (dec_real d' E - x)) by lra.
    destruct (Rle_lt_or_eq_dec _ _ H) as [H'|H']; [left|right]; lra.
  - left. destruct C as [C|C]; [destruct C; apply (cand_above d'); [lia|exact O]|]. apply (proj1 (half E)) in C.
    assert (dec_real (cand_lo E + 1) E <= dec_real d' E)%R by (apply dec_real_le; lia). rewrite (Rabs_pos_eq (dec_real d' E - x)) by lra. lra.
Qed.
Lemma choose_hi E : (~ cand_ok (cand_lo E) E \/ (cand_den E <= 2 * (cand_num E mod cand_den E))%N) -> choice (cand_lo E + 1) E.
Proof.
  intros C d' O. destruct (cand_bounds E) as [B1 B2]. unfold closer.
  rewrite (Rabs_pos_eq (dec_real (cand_lo E + 1) E - x)) by lra. destruct (N.le_gt_cases d' (cand_lo E)) as [L|L].
  - assert (dec_real d' E <= dec_real (cand_lo E) E)%R by now apply dec_real_le. rewrite (Rabs_left1 (dec_real d' E - x)) by lra.
    destruct C as [C|C]; [destruct C; apply (cand_below d'); [lia|exact O]|]. apply (proj2 (half E)) in C.
    destruct (Rle_lt_or_eq_dec (dec_real (cand_lo E + 1) E - x) (- (dec_real d' E - x))) as [H'|H']; [lra|left; lra|right; split; lra].
  - assert (dec_real (cand_lo E + 1) E <= dec_real d' E)%R by (apply dec_real_le; lia). rewrite (Rabs_pos_eq (dec_real d' E - x)) by lra.
    destruct (Rle_lt_or_eq_dec _ _ H) as [H'|H']; [left|right]; lra.
Qed.

Lemma scan_spec fuel : forall E,
  match shortest_scan prec emax m e fuel E with
  | Some (d, E1) =>
      E - Z.of_nat fuel < E1 <= E /\ cand_ok d E1 /\
      (d = cand_lo E1 \/ d = cand_lo E1 + 1)%N /\ choice d E1 /\
      (forall E', E1 < E' <= E -> ~ cand_ok (cand_lo E') E' /\ ~ cand_ok (cand_lo E' + 1) E')
  | None =>
      forall E', E - Z.of_nat fuel < E' <= E -> ~ cand_ok (cand_lo E') E' /\ ~ cand_ok (cand_lo E' + 1) E'
  end.
Proof.
  induction fuel as [|k IH]; intros E.
  - cbn. intros E' H. lia.
  - cbn [shortest_scan]. fold (cand_num E) (cand_den E). fold (cand_lo E). fold X.
    destruct (sf_eqb (decf (cand_lo E) E) X) eqn:L.
    + apply sf_eqb_iff, decf_iff in L.
      destruct (sf_eqb (decf (cand_lo E + 1) E) X) eqn:Hh; cbn [andb].
      * apply sf_eqb_iff, decf_iff in Hh.
        destruct (cand_den E <=? _)%N eqn:T.
        -- apply N.leb_le in T. split; [lia|]. split; [exact Hh|]. split; [now right|]. split; [apply choose_hi; now right|intros; lia].
        -- apply N.leb_gt in T. split; [lia|]. split; [exact L|]. split; [now left|]. split; [apply choose_lo; now right|intros; lia].
      * assert (NH : ~ cand_ok (cand_lo E + 1) E).
        { intros K. apply decf_iff, sf_eqb_iff in K. congruence. }
        split; [lia|]. split; [exact L|]. split; [now left|]. split; [apply choose_lo; now left|intros; lia].
    + destruct (sf_eqb (decf (cand_lo E + 1) E) X) eqn:Hh.
      * apply sf_eqb_iff, decf_iff in Hh. assert (NL : ~ cand_ok (cand_lo E) E).
        { intros K. apply decf_iff, sf_eqb_iff in K. congruence. }
        split; [lia|]. split; [exact Hh|]. split; [now right|]. split; [apply choose_hi; now left|intros; lia].
      * specialize (IH (E - 1)).
        assert (NL : ~ cand_ok (cand_lo E) E).
        { intros K. apply decf_iff, sf_eqb_iff in K. congruence. }
        assert (NH : ~ cand_ok (cand_lo E + 1) E).
        { intros K. apply decf_iff, sf_eqb_iff in K. congruence. }
        destruct (shortest_scan prec emax m e k (E - 1)) as [[d E1]|].
        -- destruct IH as (A & B & C & Ch & D). split; [lia|]. split; [exact B|]. split; [exact C|]. split; [exact Ch|]. intros E' H. split.
           ++ destruct (Z.eq_dec E' E) as [->|N]; [assumption|]. apply D. lia.
           ++ destruct (Z.eq_dec E' E) as [->|N]; [assumption|]. apply D. lia.
        -- intros E' H. destruct (Z.eq_dec E' E) as [->|N]; [auto|]. apply IH. lia.
Qed.

(** any decimal at exponent [E] rounding to [x] makes one candidate succeed *)
Lemma cand_complete d E : cand_ok d E -> cand_ok (cand_lo E) E \/ cand_ok (cand_lo E + 1) E.
Proof.
  intros H. unfold cand_ok in *. destruct (cand_bounds E) as [B1 B2].
  destruct (N.le_gt_cases d (cand_lo E)) as [L|L].
  - left. apply Rle_antisym.
    + apply round_le_generic; auto with typeclass_instances. apply x_format.
    + rewrite <- H. apply round_le; auto with typeclass_instances. now apply dec_real_le.
  - right. apply Rle_antisym.
    + rewrite <- H. apply round_le; auto with typeclass_instances. apply dec_real_le. lia.
    + apply round_ge_generic; auto with typeclass_instances; [apply x_format|lra].
Qed.

(** a successful exponent that bounds the number of digits *)
Lemma good_exponent : exists p, -1000 <= p <= 300 /\ cand_ok (cand_lo p) p /\ (x < bpow radix10 (p + 19))%R.
Proof.
  set (q := mag radix10 x : Z).
  assert (Q1 : (bpow radix10 (q - 1) <= x)%R).
  { pose proof (bpow_mag_le radix10 x) as H. rewrite Rabs_pos_eq in H by (left; apply x_pos).
    apply H. pose proof x_pos. lra. }
  assert (Q2 : (x < bpow radix10 q)%R).
  { pose proof (bpow_mag_gt radix10 x) as H. rewrite Rabs_pos_eq in H by (left; apply x_pos). exact H. }
  exists (q - 19). split; [|split].
  - split.
    + assert (L : -400 < q).
      { apply (lt_bpow radix10). apply Rle_lt_trans with x; [|exact Q2].
        apply Rle_trans with (bpow radix2 e); [|apply x_ge].
        apply Rle_trans with (bpow radix2 (-1074)); [|apply bpow_le; apply e_ge].
        change (-400) with (- (400)). change (-1074) with (- (1074)). rewrite !bpow_opp.
        apply Rinv_le; [apply bpow_gt_0|].
        rewrite <- (IZR_Zpower radix10), <- (IZR_Zpower radix2) by lia. apply IZR_le.
        apply Z.leb_le. vm_compute. reflexivity. }
      lia.
    + assert (L : q - 1 < 318).
      { apply (lt_bpow radix10). apply Rle_lt_trans with x; [exact Q1|].
        apply Rlt_trans with (bpow radix2 emax); [apply x_lt_emax|].
        apply Rle_lt_trans with (bpow radix2 1024); [apply bpow_le; lia|].
        rewrite <- (IZR_Zpower radix10), <- (IZR_Zpower radix2) by lia. apply IZR_lt.
        apply Z.ltb_lt. vm_compute. reflexivity. }
      lia.
  - unfold cand_ok. apply round_close. destruct (cand_bounds (q - 19)) as [B1 B2]. split; [|exact B1].
    unfold dec_real in *. rewrite N2Z.inj_add, plus_IZR in B2. change (IZR (Z.of_N 1)) with 1%R in B2.
    assert (S : (bpow radix10 (q - 19) <= bpow radix2 (e - 2))%R); [|lra].
    assert (T : (bpow radix10 (q - 19) = bpow radix10 (q - 1) * bpow radix10 (-18))%R).
    { rewrite <- bpow_plus. f_equal. lia. }
    rewrite T. apply Rle_trans with (bpow radix2 (e + prec) * bpow radix10 (-18))%R.
    + apply Rmult_le_compat_r; [apply bpow_ge_0|]. pose proof x_lt_prec. lra.
    + replace (e - 2) with (e + prec + (- (2 + prec))) by lia.
      rewrite (bpow_plus radix2 (e + prec)). apply Rmult_le_compat_l; [apply bpow_ge_0|].
      apply Rle_trans with (bpow radix2 (- 55)); [|apply bpow_le; lia].
      change (/ IZR (10 ^ 18) <= / IZR (2 ^ 55))%R. apply Rinv_le; [apply IZR_lt; lia|].
      apply IZR_le. lia.
  - replace (q - 19 + 19) with q by lia. exact Q2.
Qed.

(** the exponent of a decimal rounding to [x] is below 309 *)
Lemma cand_exp_le d E : (0 < d)%N -> cand_ok d E -> E < 309.
Proof.
  intros D H. apply (lt_bpow radix10).
  destruct (Rlt_or_le (bpow radix10 E) (bpow radix10 309)) as [L|L]; [exact L|exfalso].
  assert (K : (bpow radix2 emax <= rnd (dec_real d E))%R).
  { apply round_ge_generic; auto with typeclass_instances.
    - apply generic_format_bpow. unfold SpecFloat.fexp, emin, Prec_lt_emax, Prec_gt_0 in *. lia.
    - apply Rle_trans with (bpow radix10 309).
      + apply Rle_trans with (bpow radix2 1024); [apply bpow_le; lia|].
        rewrite <- (IZR_Zpower radix10), <- (IZR_Zpower radix2) by lia. apply IZR_le.
        apply Z.leb_le. vm_compute. reflexivity.
      + apply Rle_trans with (bpow radix10 E); [exact L|].
        unfold dec_real. rewrite <- (Rmult_1_l (bpow radix10 E)) at 1.
        apply Rmult_le_compat_r; [apply bpow_ge_0|apply IZR_le; lia]. }
  unfold cand_ok in H. rewrite H in K. pose proof x_lt_emax. lra.
Qed.

Lemma cand_pos d E : cand_ok d E -> (0 < d)%N.
Proof.
  intros H. destruct d as [|p]; [|lia]. exfalso. unfold cand_ok, dec_real in H.
  rewrite Rmult_0_l, round_0 in H by auto with typeclass_instances. pose proof x_pos. lra.
Qed.

(** and it is among the exponents scanned *)
Lemma first_exponent_bounds : 1 <= first_exponent prec e <= 342.
Proof.
  unfold first_exponent. assert (U : e + prec <= emax).
  { unfold SpecFloat.bounded in Bnd. apply andb_prop in Bnd. destruct Bnd as [_ B]. apply Zle_bool_imp_le in B. lia. }
  pose proof (Z.div_pos (Z.max (e + prec) 0) 3 ltac:(lia) ltac:(lia)).
  pose proof (Z.div_le_mono (Z.max (e + prec) 0) 1024 3 ltac:(lia) ltac:(lia)). change (1024 / 3) with 341 in *. lia.
Qed.
Lemma cand_first d E : cand_ok d E -> E <= first_exponent prec e.
Proof.
  intros H. assert (D := cand_pos d E H). apply Z.nlt_ge. intros L.
  assert (P : 1 <= first_exponent prec e) by apply first_exponent_bounds.
  assert (K : (bpow radix2 (e + prec) <= rnd (dec_real d E))%R).
  { apply round_ge_generic; auto with typeclass_instances.
    - apply generic_format_bpow. pose proof x_exp as Q. unfold SpecFloat.fexp, emin, Prec_lt_emax, Prec_gt_0 in *. lia.
    - apply Rle_trans with (bpow radix2 (3 * E)).
      + apply bpow_le. unfold first_exponent in L.
        pose proof (Z.div_mod (Z.max (e + prec) 0) 3 ltac:(lia)). pose proof (Z.mod_pos_bound (Z.max (e + prec) 0) 3 ltac:(lia)). lia.
      + apply Rle_trans with (bpow radix10 E).
        * rewrite <- (IZR_Zpower radix10), <- (IZR_Zpower radix2) by lia. apply IZR_le.
          change (2 ^ (3 * E) <= 10 ^ E). rewrite Z.pow_mul_r by lia. change (2 ^ 3) with 8. apply Z.pow_le_mono_l. lia.
        * unfold dec_real. rewrite <- (Rmult_1_l (bpow radix10 E)) at 1.
          apply Rmult_le_compat_r; [apply bpow_ge_0|apply IZR_le; lia]. }
  unfold cand_ok in H. rewrite H in K. pose proof x_lt_prec. lra.
Qed.

(** what the scan returns: a decimal of maximal exponent, below 2^64 *)
Lemma scan_result : exists d E,
  shortest_scan prec emax m e 1400 (first_exponent prec e) = Some (d, E) /\
  cand_ok d E /\ (0 < d)%N /\ (d < 2 ^ 64)%N /\ -1100 < E < 309 /\
  (forall d' E', cand_ok d' E' -> E' <= E) /\ choice d E.
Proof.
  pose proof (scan_spec 1400 (first_exponent prec e)) as H. pose proof first_exponent_bounds as FB. change (Z.of_nat 1400) with 1400 in H.
  destruct good_exponent as (p & Bp & Op & Xp).
  destruct (shortest_scan prec emax m e 1400 (first_exponent prec e)) as [[d E]|].
  - destruct H as (R & O & C & Ch & M). exists d, E.
    assert (Dp := cand_pos d E O). assert (El := cand_exp_le d E Dp O).
    assert (MX : forall d' E', cand_ok d' E' -> E' <= E).
    { intros d' E' K. destruct (Z.le_gt_cases E' E) as [L|L]; [exact L|exfalso].
      assert (E' <= first_exponent prec e) by now apply (cand_first d').
      destruct (cand_complete d' E' K) as [K1|K1]; apply (M E' ltac:(lia)) in K1; exact K1. }
    assert (P : p <= E) by (apply (MX _ _ Op)).
    split; [reflexivity|]. split; [exact O|]. split; [exact Dp|]. split; [|split; [lia|split; [exact MX|exact Ch]]].
    assert (L : (d <= cand_lo E + 1)%N) by (destruct C; lia).
    assert (L2 : (cand_lo E < 10 ^ 19)%N).
    { apply dec_real_le_inv with E. destruct (cand_bounds E) as [B1 _].
      apply Rle_lt_trans with x; [exact B1|]. apply Rlt_le_trans with (bpow radix10 (p + 19)); [exact Xp|].
      unfold dec_real. rewrite N2Z.inj_pow. change (Z.of_N 10) with (radix_val radix10).
      rewrite IZR_Zpower by lia. rewrite <- bpow_plus. apply bpow_le. lia. }
    assert (10 ^ 19 < 2 ^ 64)%N by (vm_compute; reflexivity). lia.
  - exfalso. pose proof (cand_first _ _ Op). apply (proj1 (H p ltac:(lia))). exact Op.
Qed.

(** the mantissa has no trailing zero *)
Lemma no_trailing d E : cand_ok d E -> (forall d' E', cand_ok d' E' -> E' <= E) -> (d mod 10 <> 0)%N.
Proof.
  intros O M K. assert (D := N.div_mod d 10 ltac:(lia)). rewrite K, N.add_0_r in D.
  assert (O' : cand_ok (d / 10) (E + 1)).
  { unfold cand_ok in *. rewrite <- O. f_equal. rewrite D at 2.
    rewrite N.mul_comm. symmetry. apply (dec_real_shift (d / 10) E 1). lia. }
  apply M in O'. lia.
Qed.

(** and no decimal with fewer digits rounds to [x] *)
Lemma shortest_digits d E k d' E' :
  cand_ok d E -> (forall d' E', cand_ok d' E' -> E' <= E) ->
  0 <= k -> (10 ^ Z.to_N k <= d)%N -> cand_ok d' E' -> (10 ^ Z.to_N k <= d')%N.
Proof.
  intros O M Hk D O'.
  destruct (N.le_gt_cases (10 ^ Z.to_N k) d') as [L|L]; [exact L|exfalso].
  assert (Dp := cand_pos _ _ O').
  assert (E' <= E) by (now apply (M d')).
  assert (K0 : k <> 0) by (intros ->; cbn in L; lia).
  assert (T : cand_ok 1 (E + k)).
  { unfold cand_ok in *.
    assert (V : dec_real 1 (E + k) = dec_real (10 ^ Z.to_N k) E).
    { rewrite <- (N.mul_1_l (10 ^ _)). now rewrite dec_real_shift. }
    apply Rle_antisym.
    - rewrite <- O at 1. apply round_le; auto with typeclass_instances. rewrite V. now apply dec_real_le.
    - rewrite <- O' at 1. apply round_le; auto with typeclass_instances. rewrite V.
      apply Rle_trans with (dec_real (10 ^ Z.to_N k) E'); [apply dec_real_le; lia|].
      unfold dec_real. apply Rmult_le_compat_l; [apply IZR_le; lia|]. now apply bpow_le. }
  apply M in T. lia.
Qed.

Lemma shortest_result : exists d E,
  shortest prec emax m e = Some (d, E) /\
  decf d E = X /\ (0 < d)%N /\ (d < 2 ^ 64)%N /\ -1100 < E < 309 /\ (d mod 10 <> 0)%N /\
  (forall d' E', decf d' E' = X -> E' <= E) /\
  (forall k d' E', (10 ^ k <= d)%N -> decf d' E' = X -> (10 ^ k <= d')%N) /\
  (forall d' E', decf d' E' = X -> E <= E' -> closer x (dec_real d E) (dec_real d' E')).
Proof.
  destruct scan_result as (d & E & S & O & P & B & R & M & Ch).
  assert (NT := no_trailing d E O M).
  exists d, E. unfold shortest. rewrite S.
  assert (Z0 : strip_zeros (Datatypes.S (N.to_nat (N.size d))) d E = (d, E)).
  { cbn [strip_zeros]. assert (K : (d mod 10 =? 0)%N = false) by now apply N.eqb_neq. now rewrite K. }
  rewrite Z0. split; [reflexivity|]. split; [now apply decf_iff|].
  split; [auto|]. split; [auto|]. split; [auto|]. split; [auto|].
  split; [intros d' E' O'; apply decf_iff in O'; now apply (M d')|].
  split.
  - intros k d' E' L O'. apply decf_iff in O'.
    rewrite <- (N2Z.id k) in L |- *.
    exact (shortest_digits d E (Z.of_N k) d' E' O M (N2Z.is_nonneg k) L O').
  - intros d' E' O' L. apply decf_iff in O'. assert (E' = E) by (specialize (M _ _ O'); lia). subst E'. now apply Ch.
Qed.
End Scan.
