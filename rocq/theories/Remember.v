(** * What the conversions remember of a number (C113) *)
From Coq Require Import Lia Lra Reals Floats.SpecFloat.
From Flocq Require Import Core IEEE754.BinarySingleNaN.
From Flocq Require Import Relative.
From Verif Require Import Base F64 Operands PluralRules Spec SpecR F64Facts DigitFacts OperandsFacts OperandsProps FloatProps Shortest Represents
  FloatConf FloatAgree FloatAny F32Any.
Open Scope list_scope.
Open Scope N_scope.

(** ** Numerals *)
Lemma frac_value_bound l : Forall (fun x => x < 10) l -> frac_value l < 10 ^ N.of_nat (List.length l).
Proof.
  induction 1 as [|x l H F IH]; [cbn; lia|]. cbn [frac_value List.length]. rewrite Nat2N.inj_succ, N.pow_succ_r'. nia.
Qed.
Lemma frac_value_inj l l' : Forall (fun x => x < 10) l -> Forall (fun x => x < 10) l' ->
  List.length l = List.length l' -> frac_value l = frac_value l' -> l = l'.
Proof.
  intro F. revert l'. induction F as [|x l H F IH]; intros [|x' l'] F' L V; try discriminate L; [reflexivity|].
  inversion F' as [|? ? H' F'']; subst. injection L as L. cbn [frac_value] in V. rewrite <- L in V.
  pose proof (frac_value_bound _ F) as B. pose proof (frac_value_bound _ F'') as B'. rewrite <- L in B'.
  assert (x = x') as -> by nia. f_equal. apply IH; auto. lia.
Qed.
Lemma digits_below f : digits f -> Forall (fun x => x < 10) (List.map (fun c => c - 48) f).
Proof. induction 1 as [|c f H _ IH]; cbn [List.map]; constructor; auto. unfold digit_char in H. lia. Qed.

Lemma numeral_int s d po : numeral s d -> d_frac d = [] -> operands_from_str s = Ok po ->
  po = mkOps (f64_of_N (d_int d)) (float_to_u64 (f64_of_N (d_int d))) 0 0 0 0.
Proof.
  intros (sg & i & f & S & Di & Ni & Df & -> & ->) Z E. cbn [d_int d_frac] in *. destruct f; [|discriminate Z].
  rewrite app_nil_r, from_str_int in E by auto. now injection E as <-.
Qed.
Lemma numeral_frac s d po : numeral s d -> d_frac d <> [] -> operands_from_str s = Ok po ->
  op_n po = dec64 (uts_num d) (- Z.of_N (uts_v d)) /\
    op_i po = uts_i d /\ op_v po = uts_v d /\ op_w po = uts_w d /\ op_f po = uts_f d /\ op_t po = uts_t d.
Proof.
  intros Nu Z E. pose proof Nu as (sg & i & f & S & Di & Ni & Df & Q & D).
  assert (Nf : f <> []) by (intros ->; subst d; now apply Z).
  assert (B : dval i < 2 ^ 64 /\ dval f < 2 ^ 64).
  { apply (accepted_frac_bounds sg i f po); auto. rewrite <- E, Q. destruct f; [now destruct Nf|reflexivity]. }
  destruct (numeral_operands s d Nu) as (po' & E' & R).
  - intro K. now elim Z.
  - subst d. apply B.
  - subst d. unfold uts_f. cbn [d_frac]. change (fun c => c - 48) with dig. rewrite frac_value_dig. apply B.
  - rewrite E in E'. injection E' as <-. exact R.
Qed.
Lemma operands_ext a b : op_n a = op_n b -> op_i a = op_i b -> op_v a = op_v b -> op_w a = op_w b -> op_f a = op_f b -> op_t a = op_t b ->
  a = b.
Proof. destruct a, b. cbn. congruence. Qed.

Lemma C113_numeral_lemma s s' d d' po po' : numeral s d -> numeral s' d' ->
  operands_from_str s = Ok po -> operands_from_str s' = Ok po' ->
  (po = po' <-> d = d' \/ (d_frac d = [] /\ d_frac d' = [] /\
     exists y, nearest64 (IZR (Z.of_N (d_int d))) y /\ nearest64 (IZR (Z.of_N (d_int d'))) y)).
Proof.
  intros N N' E E'.
  destruct (d_frac d) as [|x l] eqn:F.
  - pose proof (numeral_int s d po N F E) as ->.
    destruct (d_frac d') as [|x' l'] eqn:F'.
    + pose proof (numeral_int s' d' po' N' F' E') as ->. split.
      * intro H. right. split; [auto|]. split; [auto|]. exists (f64_of_N (d_int d)).
        assert (Q : f64_of_N (d_int d) = f64_of_N (d_int d')) by (injection H; auto).
        split; [apply f64_of_N_nearest|]. rewrite Q. apply f64_of_N_nearest.
      * intros [->|(_ & _ & y & Y & Y')]; [reflexivity|].
        rewrite (nearest64_unique _ _ _ Y (f64_of_N_nearest _)) in Y'.
        now rewrite (nearest64_unique _ _ _ Y' (f64_of_N_nearest _)).
    + assert (F'' : d_frac d' <> []) by (rewrite F'; discriminate).
      destruct (numeral_frac s' d' po' N' F'' E') as (_ & _ & V & _). split.
      * intros <-. cbn [op_v] in V. unfold uts_v in V. rewrite F' in V. cbn in V. lia.
      * intros [->|(_ & K & _)]; [congruence|discriminate K].
  - assert (Fn : d_frac d <> []) by (rewrite F; discriminate).
    destruct (numeral_frac s d po N Fn E) as (A1 & A2 & A3 & A4 & A5 & A6).
    destruct (d_frac d') as [|x' l'] eqn:F'.
    + pose proof (numeral_int s' d' po' N' F' E') as ->. split.
      * intros ->. cbn [op_v] in A3. unfold uts_v in A3. rewrite F in A3. cbn in A3. lia.
      * intros [->|(K & _)]; [congruence|discriminate K].
    + assert (F'' : d_frac d' <> []) by (rewrite F'; discriminate).
      destruct (numeral_frac s' d' po' N' F'' E') as (B1 & B2 & B3 & B4 & B5 & B6). split.
      * intros <-. left. 
        assert (I : d_int d = d_int d') by (unfold uts_i in *; congruence).
        assert (V : List.length (d_frac d) = List.length (d_frac d')) by (unfold uts_v in *; lia).
        assert (W : frac_value (d_frac d) = frac_value (d_frac d')) by (unfold uts_f in *; congruence).
        destruct N as (? & ? & f & _ & _ & _ & Df & _ & ->), N' as (? & ? & f' & _ & _ & _ & Df' & _ & ->).
        cbn [d_int d_frac] in *. rewrite I. f_equal. apply frac_value_inj; auto using digits_below.
      * intros [->|(K & _)]; [|discriminate K]. apply operands_ext; congruence.
Qed.

(** below 2^53 nothing is forgotten *)
Lemma C113_small_lemma s s' d d' po : numeral s d -> numeral s' d' -> (d_frac d = [] -> d_int d < 2 ^ 53) ->
  operands_from_str s = Ok po -> operands_from_str s' = Ok po -> d = d'.
Proof.
  intros N N' B E E'. pose proof (proj1 (C113_numeral_lemma s s' d d' po po N N' E E') eq_refl) as [H|(F & F' & _)]; [exact H|].
  specialize (B F).
  pose proof (numeral_int s d po N F E) as P. pose proof (numeral_int s' d' po N' F' E') as P'. rewrite P in P'.
  assert (Q : f64_of_N (d_int d) = f64_of_N (d_int d')) by (injection P'; auto). clear P P' E E'.
  pose proof (f64_of_N_nearest (d_int d)) as Y. pose proof (f64_of_N_nearest (d_int d')) as Y'. rewrite <- Q in Y'.
  assert (R : rnd64 (IZR (Z.of_N (d_int d))) = IZR (Z.of_N (d_int d))) by (apply rnd64_int; lia).
  assert (R' : rnd64 (IZR (Z.of_N (d_int d'))) = IZR (Z.of_N (d_int d))).
  { unfold nearest64 in Y, Y'. cbv zeta in Y, Y'. change (FLT_exp (-1074) 53) with fexp64 in Y, Y'. rewrite R in Y.
    destruct Y as [(_ & _ & _ & Y & _)|[Y Y0]].
    - destruct Y' as [(_ & _ & _ & Y' & _)|[_ Y']]; [congruence|]. exfalso. rewrite Y' in Y. cbn in Y.
      assert (d_int d = 0) as Z0 by (apply eq_sym, eq_IZR in Y; lia).
      rewrite Z0 in Y'. vm_compute in Y'. discriminate Y'.
    - exfalso. apply (Rle_not_lt _ _ Y). apply Rlt_trans with (bpow radix2 53); [|apply bpow_lt; lia].
      rewrite <- IZR_Zpower by lia. apply IZR_lt. change (radix2 ^ 53)%Z with (2 ^ 53)%Z. lia. }
  assert (L : d_int d' < 2 ^ 53).
  { destruct (N.lt_ge_cases (d_int d') (2 ^ 53)) as [K|K]; [exact K|exfalso].
    assert (G : (bpow radix2 53 <= rnd64 (IZR (Z.of_N (d_int d'))))%R).
    { apply round_ge_generic; auto with typeclass_instances; [apply generic_format_bpow; vm_compute; discriminate|].
      rewrite <- IZR_Zpower by lia. apply IZR_le. change (radix2 ^ 53)%Z with (2 ^ 53)%Z. lia. }
    rewrite R', <- IZR_Zpower in G by lia. apply le_IZR in G. change (radix2 ^ 53)%Z with (2 ^ 53)%Z in G. lia. }
  rewrite rnd64_int in R' by lia. apply eq_IZR in R'. destruct d as [i f], d' as [i' f']. cbn [d_int d_frac] in *. subst. f_equal. lia.
Qed.

(** ** Integers *)
Lemma C113_unsigned_lemma x x' : operands_from_unsigned x = operands_from_unsigned x' <-> x = x'.
Proof. split; [|now intros ->]. unfold operands_from_unsigned. intro H. now injection H. Qed.
Lemma C113_signed_lemma z z' : (- 2 ^ 63 <= z < 2 ^ 63)%Z -> (- 2 ^ 63 <= z' < 2 ^ 63)%Z ->
  (operands_from_signed W64 z = operands_from_signed W64 z' <-> Z.abs z = Z.abs z').
Proof.
  intros R R'. split.
  - intro H. destruct (C12_lemma z R) as [[A E]|(A & n & E & _)], (C12_lemma z' R') as [[A' E']|(A' & n' & E' & _)]; rewrite E, E' in H.
    + now subst.
    + discriminate H.
    + discriminate H.
    + assert (Q : Z.to_N (Z.abs z) = Z.to_N (Z.abs z')) by (injection H; auto). lia.
  - intro A. assert (C : z = z' \/ z = (- z')%Z) by lia. destruct C as [->| ->]; [reflexivity|]. apply C14_lemma.
Qed.
Lemma C113_wrap_lemma z z' :
  (operands_from_signed W32 z = operands_from_signed W32 z' <-> (z mod 2 ^ 32 = z' mod 2 ^ 32 \/ z mod 2 ^ 32 = - z' mod 2 ^ 32)%Z).
Proof.
  destruct (C13_modulo z) as (x & X & M & E), (C13_modulo z') as (x' & X' & M' & E'). rewrite E, E'.
  assert (A : (operands_from_unsigned (Z.to_N (Z.abs x)) = operands_from_unsigned (Z.to_N (Z.abs x')) <-> Z.abs x = Z.abs x')).
  { rewrite C113_unsigned_lemma. lia. }
  assert (B : ((z mod 2 ^ 32 = z' mod 2 ^ 32 \/ z mod 2 ^ 32 = - z' mod 2 ^ 32)%Z <-> Z.abs x = Z.abs x')).
  { assert (O : (- z' mod 2 ^ 32 = - x' mod 2 ^ 32)%Z).
    { rewrite <- (Z.mul_1_l z'), <- (Z.mul_1_l x'), <- !Z.mul_opp_l, (Z.mul_mod (- (1)) z'), (Z.mul_mod (- (1)) x') by lia. now rewrite M'. }
    rewrite O, <- M, <- M'. clear - X X'.
    pose proof (Z.div_mod x (2 ^ 32) ltac:(lia)). pose proof (Z.mod_pos_bound x (2 ^ 32) ltac:(lia)).
    pose proof (Z.div_mod x' (2 ^ 32) ltac:(lia)). pose proof (Z.mod_pos_bound x' (2 ^ 32) ltac:(lia)).
    pose proof (Z.div_mod (- x') (2 ^ 32) ltac:(lia)). pose proof (Z.mod_pos_bound (- x') (2 ^ 32) ltac:(lia)).
    split; [intros [K|K]; lia|]. intro K. assert (C : x = x' \/ x = (- x')%Z) by lia. destruct C as [->| ->]; auto. }
  rewrite B. destruct (Z.eqb_spec x (- 2 ^ 31)) as [Q|Q], (Z.eqb_spec x' (- 2 ^ 31)) as [Q'|Q'].
  - subst. split; auto.
  - split; [discriminate|lia].
  - split; [discriminate|lia].
  - rewrite <- A. split; [congruence|now intros ->].
Qed.

(** ** Floats *)
Lemma abs_sign x : SFabs x = x \/ SFabs x = SFopp x.
Proof. destruct x as [[|]|[|]| |[|] m e]; cbn; auto. Qed.
Lemma C113_f64_lemma x x' : valid64 x -> valid64 x' -> (operands_from_f64 x = operands_from_f64 x' <-> SFabs x = SFabs x').
Proof.
  intros V V'. split.
  - intro H.
    assert (K : forall x, valid64 x -> exists po, operands_from_f64 x = Ok po /\ op_n po = SFabs x).
    { clear. intros x V. destruct (is_finite_SF x) eqn:F.
      - destruct (C16_f64 x V F) as [po E]. exists po. split; [exact E|]. exact (C17_lemma x po V F E).
      - destruct x as [s|s| |s m e]; try discriminate F; [destruct s|]; eexists; split; reflexivity. }
    destruct (K x V) as (po & E & Q), (K x' V') as (po' & E' & Q'). congruence.
  - intro H. assert (K : forall x, valid64 x -> operands_from_f64 x = operands_from_f64 (SFabs x)).
    { clear. intros x V. destruct (abs_sign x) as [-> | ->]; [reflexivity|]. symmetry. now apply C19_lemma. }
    rewrite (K x V), (K x' V'). now rewrite H.
Qed.

Lemma rel_error y : (bpow radix2 (-1022) <= y)%R -> (Rabs (rnd64 y - y) <= bpow radix2 (-53) * y)%R.
Proof.
  intro L. pose proof (relative_error_N_FLT radix2 (-1074)%Z 53%Z ltac:(lia) (fun x => negb (Z.even x)) y) as H.
  pose proof (bpow_gt_0 radix2 (-1022)) as P. rewrite Rabs_pos_eq in H by lra. specialize (H L).
  replace (bpow radix2 (-53)) with (/ 2 * bpow radix2 (- (53) + 1))%R; [exact H|].
  replace (-53)%Z with (-1 + (- (53) + 1))%Z by lia. rewrite (bpow_plus radix2 (-1)). reflexivity.
Qed.
Lemma short_apart d E d' E' : 0 < d < 10 ^ 10 -> 0 < d' < 10 ^ 10 ->
  (bpow radix2 (-1022) <= dec_real d E)%R -> (bpow radix2 (-1022) <= dec_real d' E')%R ->
  rnd64 (dec_real d E) = rnd64 (dec_real d' E') -> dec_real d E = dec_real d' E'.
Proof.
  assert (G : forall d E d' E', (E <= E')%Z -> 0 < d < 10 ^ 10 -> 0 < d' < 10 ^ 10 ->
    (bpow radix2 (-1022) <= dec_real d E)%R -> (bpow radix2 (-1022) <= dec_real d' E')%R ->
    rnd64 (dec_real d E) = rnd64 (dec_real d' E') -> dec_real d E = dec_real d' E').
  { clear. intros d E d' E' LE D D' L L' R.
    replace E' with (E + (E' - E))%Z in * by lia. rewrite <- (dec_real_shift d' E (E' - E)) in * by lia.
    set (D2 := d' * 10 ^ Z.to_N (E' - E)) in *. f_equal.
    apply rel_error in L, L'. rewrite R in L. 
    apply Rabs_le_inv in L. apply Rabs_le_inv in L'.
    set (r := rnd64 (dec_real D2 E)) in *. clearbody r. clear R. clearbody D2.
    unfold dec_real in *. pose proof (bpow_gt_0 radix10 E) as P. set (t := bpow radix10 E) in *. clearbody t.
    assert (B : (bpow radix2 (-53) <= / 900000000000000)%R).
    { change (-53)%Z with (- (53))%Z. rewrite bpow_opp. apply Rinv_le; [lra|]. rewrite <- IZR_Zpower by lia. apply IZR_le. vm_compute. discriminate. }
    pose proof (bpow_gt_0 radix2 (-53)) as P2. set (u := bpow radix2 (-53)) in *. clearbody u.
    assert (A : (IZR (Z.of_N d) < IZR (10 ^ 10))%R) by (apply IZR_lt; lia).
    assert (A0 : (0 < IZR (Z.of_N d))%R) by (apply IZR_lt; lia).
    assert (A1 : (0 <= IZR (Z.of_N D2))%R) by (apply IZR_le; lia).
    destruct (N.lt_trichotomy d D2) as [K|[K|K]]; [exfalso|exact K|exfalso].
    - assert (A2 : (IZR (Z.of_N d) + 1 <= IZR (Z.of_N D2))%R) by (rewrite <- plus_IZR; apply IZR_le; lia).
      set (a := IZR (Z.of_N d)) in *. set (b := IZR (Z.of_N D2)) in *. clearbody a b.
      assert (Q : (b * t - a * t <= u * (a * t) + u * (b * t))%R) by lra.
      assert (Q2 : (b - a <= u * (a + b))%R) by nra.
      assert (Q3 : (b * (1 - u) <= a * (1 + u))%R) by lra. 
      assert (Q4 : ((a + 1) * (1 - u) <= b * (1 - u))%R) by (apply Rmult_le_compat_r; lra).
      assert (Q5 : (1 - u <= 2 * (a * u))%R) by lra.
      assert (Q6 : (a * u <= 10000000000 * / 900000000000000)%R) by (apply Rmult_le_compat; lra). lra.
    - assert (A2 : (IZR (Z.of_N D2) + 1 <= IZR (Z.of_N d))%R) by (rewrite <- plus_IZR; apply IZR_le; lia).
      set (a := IZR (Z.of_N d)) in *. set (b := IZR (Z.of_N D2)) in *. clearbody a b.
      assert (Q : (a * t - b * t <= u * (a * t) + u * (b * t))%R) by lra.
      assert (Q2 : (a - b <= u * (a + b))%R) by nra.
      assert (Q6 : (u * (a + b) <= / 900000000000000 * 20000000000)%R) by (apply Rmult_le_compat; lra). lra. }
  intros D D' L L' R. destruct (Z.le_ge_cases E E') as [K|K]; [now apply G|]. symmetry. now apply G.
Qed.
Lemma f32_range m e d E : SpecFloat.bounded 24 128 m e = true -> dec32 d E = S754_finite false m e ->
  (bpow radix2 (-1022) <= dec_real d E < bpow radix2 128)%R.
Proof.
  intros B X. apply (decf_iff 24 128 _ _ m e B) in X. split.
  - apply Rnot_lt_le. intro K.
    assert (H : (rnd32 (dec_real d E) <= 0)%R); [|pose proof (x_pos m e); lra].
    replace 0%R with (rnd32 (bpow radix2 (-1022))).
    + apply round_le; auto with typeclass_instances. lra.
    + rewrite <- (round_0 radix2 fexp32 ZnearestE). unfold round at 1 2. unfold scaled_mantissa, cexp. rewrite mag_bpow.
      change (SpecFloat.fexp 24 128 (-1022 + 1)) with (-149)%Z. rewrite Rmult_0_l.
      rewrite <- bpow_plus. replace (ZnearestE (bpow radix2 (-1022 + - (-149)))) with 0%Z.
      * rewrite Znearest_IZR || idtac. rewrite !F2R_0. rewrite (Znearest_imp _ 0%R 0%Z) by (rewrite Rminus_0_r, Rabs_R0; lra). now rewrite F2R_0.
      * symmetry. apply Znearest_imp. rewrite Rminus_0_r, Rabs_pos_eq by apply bpow_ge_0.
        apply Rle_lt_trans with (bpow radix2 (-2)); [apply bpow_le; lia|]. cbn. lra.
  - apply Rnot_le_lt. intro K. apply (Rlt_not_le _ _ (x_lt_emax 24 128 m e B)). rewrite <- X.
    apply round_ge_generic; auto with typeclass_instances. apply generic_format_bpow. vm_compute. discriminate.
Qed.
Lemma f32_n_inj m e m' e' d E d' E' : SpecFloat.bounded 24 128 m e = true -> SpecFloat.bounded 24 128 m' e' = true ->
  dec32 d E = S754_finite false m e -> dec32 d' E' = S754_finite false m' e' -> 0 < d < 10 ^ 10 -> 0 < d' < 10 ^ 10 ->
  dec64 d E = dec64 d' E' -> S754_finite false m e = S754_finite false m' e'.
Proof.
  intros B B' X X' D D' Q. rewrite <- X, <- X'. apply (dec_to_float_value 24 128 eq_refl eq_refl).
  destruct (f32_range m e d E B X) as [L U], (f32_range m' e' d' E' B' X') as [L' U'].
  apply short_apart; auto.
  assert (Y : nearest64 (dec_real d E) (dec64 d E)) by now apply nearest64_dec.
  assert (Y' : nearest64 (dec_real d' E') (dec64 d E)) by now apply nearest64_dec.
  unfold nearest64 in Y, Y'. cbv zeta in Y, Y'. change (FLT_exp (-1074) 53) with fexp64 in Y, Y'.
  assert (S : forall y, (y < bpow radix2 128)%R -> (rnd64 y < bpow radix2 1024)%R).
  { clear. intros y L. apply Rle_lt_trans with (bpow radix2 128); [|apply bpow_lt; lia].
    apply round_le_generic; auto with typeclass_instances; [|lra]. apply generic_format_bpow. vm_compute. discriminate. }
  destruct Y as [(_ & _ & _ & Y & _)|[Y _]]; [|pose proof (S _ U); lra].
  destruct Y' as [(_ & _ & _ & Y' & _)|[Y' _]]; [|pose proof (S _ U'); lra]. congruence.
Qed.
Lemma f32_n x : valid32 x -> is_finite_SF x = true -> SFabs x <> S754_zero false ->
  exists d E po m e, SFabs x = S754_finite false m e /\ SpecFloat.bounded 24 128 m e = true /\ dec32 d E = S754_finite false m e /\
    0 < d < 10 ^ 10 /\ operands_from_f32 x = Ok po /\ op_n po = dec64 d E.
Proof.
  intros V F Z. destruct x as [s|s| |s m e]; try discriminate F; [now destruct Z|].
  destruct (f32_printed2 s m e V) as (d & E & Q & X & P & M & Mx & Sh).
  assert (H : exists po, operands_from_f32 (S754_finite s m e) = Ok po /\ op_n po = dec64 d E).
  { unfold operands_from_f32. rewrite Q, from_printed by (auto using minus_opt_sign; lia). cbv zeta.
    destruct (E <? 0)%Z; eexists; split; reflexivity. }
  destruct H as (po & O & N). exists d, E, po, m, e. auto 10.
Qed.
Lemma f32_n_plain x : valid32 x -> is_finite_SF x = true -> SFabs x <> S754_zero false ->
  exists po, operands_from_f32 x = Ok po /\ op_n po <> S754_zero false /\ op_n po <> S754_infinity false /\ op_n po <> S754_nan.
Proof.
  intros V F Z. destruct (f32_n x V F Z) as (d & E & po & m & e & A & B & X & D & O & N). exists po. split; [exact O|].
  rewrite N. pose proof (f32_range m e d E B X) as [L U].
  assert (Y : nearest64 (dec_real d E) (dec64 d E)) by now apply nearest64_dec.
  unfold nearest64 in Y. cbv zeta in Y. change (FLT_exp (-1074) 53) with fexp64 in Y.
  assert (R1 : (rnd64 (dec_real d E) < bpow radix2 1024)%R).
  { apply Rle_lt_trans with (bpow radix2 128); [|apply bpow_lt; lia].
    apply round_le_generic; auto with typeclass_instances; [|lra]. apply generic_format_bpow. vm_compute. discriminate. }
  assert (R2 : (bpow radix2 (-1022) <= rnd64 (dec_real d E))%R).
  { apply round_ge_generic; auto with typeclass_instances. apply generic_format_bpow. vm_compute. discriminate. }
  pose proof (bpow_gt_0 radix2 (-1022)) as P.
  destruct Y as [(_ & F1 & _ & Y & _)|[Y _]]; [|lra].
  clear - F1 Y R2 P. generalize dependent (dec64 d E). intros n F1 Y. set (r := rnd64 (dec_real d E)) in *. clearbody r.
  split; [|split]; intros ->; cbn [is_finite_SF SF2R] in *; try discriminate. lra.
Qed.
Definition f32_class (x n : spec_float) : Prop :=
  (SFabs x = S754_zero false /\ n = S754_zero false) \/ (SFabs x = S754_infinity false /\ n = S754_infinity false) \/
  (SFabs x = S754_nan /\ n = S754_nan) \/
  (is_finite_SF x = true /\ SFabs x <> S754_zero false /\ n <> S754_zero false /\ n <> S754_infinity false /\ n <> S754_nan).
Lemma f32_classified x : valid32 x -> exists po, operands_from_f32 x = Ok po /\ f32_class x (op_n po).
Proof.
  intro V. destruct x as [s|s| |s m e].
  - exists (operands_from_unsigned 0). split; [destruct s; reflexivity|]. left. split; reflexivity.
  - exists (mkOps (S754_infinity false) u64_max 0 0 0 0). split; [destruct s; reflexivity|]. right. left. split; reflexivity.
  - exists (mkOps S754_nan 0 0 0 0 0). split; [reflexivity|]. right. right. left. split; reflexivity.
  - assert (F : is_finite_SF (S754_finite s m e) = true) by reflexivity.
    assert (Z : SFabs (S754_finite s m e) <> S754_zero false) by discriminate.
    destruct (f32_n_plain _ V F Z) as (po & E & N). exists po. split; [exact E|]. right. right. right. auto.
Qed.
Lemma C113_f32_lemma x x' : valid32 x -> valid32 x' -> (operands_from_f32 x = operands_from_f32 x' <-> SFabs x = SFabs x').
Proof.
  intros V V'. split.
  - intro H. destruct (f32_classified x V) as (po & O & C), (f32_classified x' V') as (po' & O' & C').
    assert (Q : po = po') by congruence. subst po'.
    destruct C as [[Z N]|[[Z N]|[[Z N]|(F & Z & N1 & N2 & N3)]]], C' as [[Z' N']|[[Z' N']|[[Z' N']|(F' & Z' & N1' & N2' & N3')]]]; try congruence.
    destruct (f32_n x V F Z) as (d & E & po1 & m & e & A & B & X & D & O1 & N).
    destruct (f32_n x' V' F' Z') as (d' & E' & po1' & m' & e' & A' & B' & X' & D' & O1' & N').
    rewrite A, A'. apply (f32_n_inj m e m' e' d E d' E'); auto. congruence.
  - intro H. assert (K : forall x, valid32 x -> operands_from_f32 x = operands_from_f32 (SFabs x)).
    { clear. intros x V. destruct (abs_sign x) as [-> | ->]; [reflexivity|]. symmetry. now apply C19_f32. }
    rewrite (K x V), (K x' V'). now rewrite H.
Qed.

(** ** Texts without a point, in any notation *)
Lemma no_point_operands s po : operands_from_str s = Ok po -> op_v po = 0 ->
  po = mkOps (op_n po) (float_to_u64 (op_n po)) 0 0 0 0.
Proof.
  intros E V. pose proof (accepted_cases s po E) as [(NI & _)|(pre & i & f & g & _ & _ & _ & _ & _ & Nf & _ & _ & _ & ->)].
  - unfold operands_from_str in E.
    destruct (match s with c :: _ => _ | [] => _ end) as [t|m|m]; try discriminate E. cbn [rbind] in E.
    destruct (ok_or _ (f64_from_str t)) as [n|m|m]; try discriminate E. cbn [rbind] in E.
    destruct (find_byte 46 t) as [k|].
    + exfalso. destruct (slice_to t k) as [x|m|m]; try discriminate E. cbn [rbind] in E.
      destruct (slice_from t (S k)) as [y|m|m]; try discriminate E. cbn [rbind] in E.
      destruct (ok_or _ (u64_from_str x)) as [a|m|m]; try discriminate E. cbn [rbind] in E.
      destruct (ok_or _ (u64_from_str y)) as [b|m|m] eqn:U; try discriminate E. cbn [rbind] in E.
      injection E as <-. cbn [op_v] in V. destruct y; [discriminate U|cbn in V; lia].
    + now injection E as <-.
  - exfalso. cbn [op_v] in V. destruct f; [now apply Nf|cbn in V; lia].
Qed.
Lemma C113_no_point_lemma s s' po po' : operands_from_str s = Ok po -> operands_from_str s' = Ok po' ->
  ~ In 46 s -> (po = po' <-> ~ In 46 s' /\ op_n po = op_n po').
Proof.
  intros E E' NI.
  assert (V : op_v po = 0).
  { destruct (accepted_cases s po E) as [(_ & V & _)|(pre & i & f & g & -> & _)]; [exact V|]. exfalso. apply NI.
    apply in_or_app. right. apply in_or_app. right. now left. }
  split.
  - intros <-. split; [|reflexivity]. intro I.
    destruct (accepted_cases s' po E') as [(K & _)|(pre & i & f & g & _ & _ & _ & _ & _ & Nf & _ & _ & _ & ->)]; [now apply K|].
    cbn [op_v] in V. destruct f; [now apply Nf|cbn in V; lia].
  - intros [NI' N].
    assert (V' : op_v po' = 0).
    { destruct (accepted_cases s' po' E') as [(_ & V' & _)|(pre & i & f & g & -> & _)]; [exact V'|]. exfalso. apply NI'.
      apply in_or_app. right. apply in_or_app. right. now left. }
    rewrite (no_point_operands s po E V), (no_point_operands s' po' E' V'). now rewrite N.
Qed.
