(** * Operands of strings and integers represent their decimal *)
From Coq Require Import Reals Psatz Floats.SpecFloat.
From Flocq Require Import Core.Core IEEE754.BinarySingleNaN.
From Verif Require Import Base F64 SpecR Operands Ast Spec DigitFacts F64Facts OperandsFacts OperandsProps GenFacts GenMeaning.
Open Scope N_scope.

Notation fexp64 := (SpecFloat.fexp 53 1024).
Notation rnd64 := (round radix2 fexp64 ZnearestE).

(** ** Comparing a float with small integers *)

(** [x] compares with the integers below 2^53 as the rational [num/den] does *)
Definition compares (x : spec_float) (num den : N) : Prop :=
  forall k, k < 2 ^ 53 ->
    SFeqb x (f64_of_N k) = (num =? k * den) /\
    SFleb (f64_of_N k) x = (k * den <=? num) /\
    SFleb x (f64_of_N k) = (num <=? k * den).

Lemma compares_real x (y : R) num den :
  valid_binary 53 1024 x = true -> is_finite_SF x = true -> SF2R radix2 x = rnd64 y ->
  0 < den -> (y * IZR (Z.of_N den) = IZR (Z.of_N num))%R ->
  (forall k, k < 2 ^ 53 -> rnd64 y = IZR (Z.of_N k) -> y = IZR (Z.of_N k)) ->
  compares x num den.
Proof.
  intros V F E D Y EX k K.
  destruct (f64_of_N_exact k) as (A & B & _); [lia|].
  rewrite SFeqb_correct, !SFleb_correct; auto using valid_f64_of_N. rewrite A, E.
  assert (Dp : (0 < IZR (Z.of_N den))%R) by (apply IZR_lt; lia).
  assert (RK : rnd64 (IZR (Z.of_N k)) = IZR (Z.of_N k)) by (apply rnd64_int; lia).
  assert (MK : (IZR (Z.of_N (k * den)) = IZR (Z.of_N k) * IZR (Z.of_N den))%R) by now rewrite N2Z.inj_mul, mult_IZR.
  destruct (Rtotal_order y (IZR (Z.of_N k))) as [L|[Q|G]].
  - assert (L1 : (rnd64 y <= IZR (Z.of_N k))%R).
    { rewrite <- RK. apply round_le; auto with typeclass_instances. lra. }
    assert (NQ : rnd64 y <> IZR (Z.of_N k)) by (intro Q; apply (EX k K) in Q; lra).
    assert (num < k * den). { apply N2Z.inj_lt, lt_IZR. rewrite MK, <- Y. nra. }
    rewrite Req_bool_false, (Rle_bool_false (IZR _)), (Rle_bool_true (rnd64 y)) by lra.
    repeat split; symmetry; [apply N.eqb_neq|apply N.leb_gt|apply N.leb_le]; lia.
  - subst y. rewrite RK.
    assert (num = k * den). { apply N2Z.inj, eq_IZR. now rewrite MK, <- Y. }
    rewrite Req_bool_true, Rle_bool_true by lra.
    repeat split; symmetry; [apply N.eqb_eq|apply N.leb_le|apply N.leb_le]; lia.
  - assert (L1 : (IZR (Z.of_N k) <= rnd64 y)%R).
    { rewrite <- RK. apply round_le; auto with typeclass_instances. lra. }
    assert (NQ : rnd64 y <> IZR (Z.of_N k)) by (intro Q; apply (EX k K) in Q; lra).
    assert (k * den < num). { apply N2Z.inj_lt, lt_IZR. rewrite MK, <- Y. nra. }
    rewrite Req_bool_false, (Rle_bool_true (IZR _)), (Rle_bool_false (rnd64 y)) by lra.
    repeat split; symmetry; [apply N.eqb_neq|apply N.leb_le|apply N.leb_gt]; lia.
Qed.

Lemma bpow10_N v : (IZR (Z.of_N (10 ^ v)) = bpow radix10 (Z.of_N v))%R.
Proof. rewrite N2Z.inj_pow. rewrite <- (IZR_Zpower radix10) by lia. reflexivity. Qed.

Lemma compares_dec m v : m < 2 ^ 53 -> v <= 307 ->
  compares (dec_to_float 53 1024 false m (- Z.of_N v)) m (10 ^ v).
Proof.
  intros M V.
  assert (P : (0 < bpow radix10 (Z.of_N v))%R) by apply bpow_gt_0.
  destruct (dec64_finite m (- Z.of_N v)) as (A & B & _).
  { apply Rle_trans with (IZR (Z.of_N m)).
    - unfold dec_real. rewrite <- (Rmult_1_r (IZR (Z.of_N m))) at 2.
      apply Rmult_le_compat_l; [apply IZR_le; lia|]. change 1%R with (bpow radix10 0). apply bpow_le. lia.
    - rewrite IZR_bpow2 by lia. apply IZR_le. apply Z.le_trans with (2 ^ 53)%Z; [lia|]. apply Z.pow_le_mono_r; lia. }
  apply (compares_real _ (dec_real m (- Z.of_N v))); auto.
  - apply (valid_dec_to_float 53 1024 _ _).
  - apply N.neq_0_lt_0, N.pow_nonzero. lia.
  - rewrite bpow10_N. unfold dec_real. rewrite bpow_opp. field. lra.
  - intros k _ Q. apply rnd64_is_int in Q; [|lia|lia].
    unfold dec_real. rewrite Q, mult_IZR, bpow_opp. rewrite (IZR_Zpower radix10) by lia. field. lra.
Qed.

(** every integer that does not overflow the range of f64 *)
Lemma compares_int X : X < 2 ^ 64 -> compares (f64_of_N X) X 1.
Proof.
  intros H.
  destruct (dec64_finite X 0) as (A & B & _).
  { rewrite dec_real_int, IZR_bpow2 by lia. apply IZR_le. apply Z.le_trans with (2 ^ 64)%Z; [lia|]. apply Z.pow_le_mono_r; lia. }
  apply (compares_real _ (IZR (Z.of_N X))); auto using valid_f64_of_N.
  - unfold f64_of_N. now rewrite A, dec_real_int.
  - lia.
  - now rewrite Rmult_1_r.
  - intros k K Q. destruct (N.le_gt_cases X (2 ^ 53)) as [L|G].
    + rewrite rnd64_int in Q by lia. exact Q.
    + exfalso. assert (L1 : (IZR (2 ^ 53) <= rnd64 (IZR (Z.of_N X)))%R).
      { rewrite <- (rnd64_int (2 ^ 53)) by lia. apply round_le; auto with typeclass_instances. apply IZR_le. lia. }
      rewrite Q in L1. apply le_IZR in L1. lia.
Qed.

Lemma represents_of po d :
  op_i po = uts_i d -> op_v po = uts_v d -> op_w po = uts_w d -> op_f po = uts_f d -> op_t po = uts_t d ->
  compares (op_n po) (uts_num d) (uts_den d) -> represents po d.
Proof. intros I V W F T C. constructor; auto; intros k K; apply (C k K). Qed.

(** ** Digit lists of a fraction *)
Definition dig (c : N) : N := c - 48.
Lemma frac_value_dig f : frac_value (List.map dig f) = dval f.
Proof. induction f as [|c f IH]; [reflexivity|]. cbn [List.map frac_value dval]. now rewrite map_length, IH. Qed.
Lemma strip_map f g : digits f -> without_trailing_zeros f g -> strip_trailing (List.map dig f) = List.map dig g.
Proof.
  intros D ((z & E) & NZ). subst f. revert D NZ. induction g as [|c g IH]; intros D NZ.
  - cbn [app List.map]. clear. induction z as [|z IH]; [reflexivity|]. cbn [repeat List.map strip_trailing]. now rewrite IH.
  - cbn [app List.map strip_trailing]. cbn [app] in D. apply digits_cons in D as [Hc D].
    destruct g as [|c2 g].
    + cbn [app]. replace (strip_trailing (List.map dig (repeat 48 z))) with (@nil N).
      * destruct (N.eqb_spec (dig c) 0) as [Z|Z]; [|reflexivity].
        exfalso. apply (NZ []). cbn. unfold dig, digit_char in *. f_equal. lia.
      * clear. induction z as [|z IH]; [reflexivity|]. cbn [repeat List.map strip_trailing]. now rewrite <- IH.
    + rewrite IH; [reflexivity|exact D|]. intros g' Q. apply (NZ (c :: g')). now rewrite Q.
Qed.
Lemma dig_lt f : digits f -> Forall (fun x => x < 10) (List.map dig f).
Proof. intro D. induction D as [|c f H D IH]; constructor; auto. unfold dig, digit_char in *. lia. Qed.

Lemma numeral_proper s d : numeral s d -> proper d.
Proof.
  intros (sg & i & f & _ & _ & _ & Df & _ & ->). unfold proper. cbn [d_frac].
  change (fun c => c - 48) with dig. now apply dig_lt.
Qed.

(** ** Strings *)
Lemma numeral_represents s d : numeral s d -> small d ->
  exists po, operands_from_str s = Ok po /\ represents po d.
Proof.
  intros (sg & i & f & S & Di & Ni & Df & -> & ->) [M V].
  unfold uts_num, uts_f, uts_den, uts_v in M. unfold uts_v in V. cbn [d_int d_frac] in M, V.
  change (fun c => c - 48) with dig in *. rewrite map_length, frac_value_dig in M. rewrite map_length in V.
  assert (TP : 0 < 10 ^ N.of_nat (List.length f)) by (apply N.neq_0_lt_0, N.pow_nonzero; lia).
  destruct f as [|c f].
  - rewrite app_nil_r. cbn [dval List.length List.map] in *. rewrite N.add_0_r in M. cbn in M.
    assert (B : dval i < 2 ^ 53) by lia.
    rewrite from_str_int by auto. rewrite f64_of_N_trunc_exact by lia.
    eexists. split; [reflexivity|]. apply represents_of; try reflexivity.
    cbn [op_n]. unfold uts_num, uts_den, uts_v, uts_f. cbn [d_int d_frac List.length frac_value].
    change (10 ^ N.of_nat 0) with 1. rewrite N.mul_1_r, N.add_0_r. apply compares_int. lia.
  - assert (B1 : dval i < 2 ^ 64) by nia.
    assert (B2 : dval (c :: f) < 2 ^ 64) by nia.
    destruct (trailing_exists (c :: f)) as [g W].
    change (46 :: c :: f) with ([46] ++ c :: f). rewrite (from_str_frac sg i (c :: f) g) by (auto; easy).
    eexists. split; [reflexivity|]. apply represents_of; cbn [op_n op_i op_v op_w op_f op_t].
    + reflexivity.
    + unfold uts_v. cbn [d_frac]. now rewrite map_length.
    + unfold uts_w. cbn [d_frac]. now rewrite (strip_map _ g Df W), map_length.
    + unfold uts_f. cbn [d_frac]. now rewrite frac_value_dig.
    + unfold uts_t. cbn [d_frac]. now rewrite (strip_map _ g Df W), frac_value_dig.
    + unfold uts_num, uts_den, uts_v, uts_f. cbn [d_int d_frac]. rewrite map_length, frac_value_dig, dval_app.
      rewrite <- nat_N_Z. apply compares_dec; [exact M|exact V].
Qed.

(** ** Integers *)
Lemma unsigned_represents x : x < 2 ^ 64 -> represents (operands_from_unsigned x) (mkDecimal x []).
Proof.
  intro H. apply represents_of; try reflexivity. cbn [operands_from_unsigned op_n].
  unfold uts_num, uts_den, uts_v, uts_f. cbn [d_int d_frac List.length frac_value].
  change (10 ^ N.of_nat 0) with 1. rewrite N.mul_1_r, N.add_0_r. now apply compares_int.
Qed.
