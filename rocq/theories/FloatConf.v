(** * Floats: their operands represent their shortest decimal *)
From Coq Require Import Reals Psatz Floats.SpecFloat.
From Flocq Require Import Core.Core IEEE754.BinarySingleNaN.
From Verif Require Import Base F64 SpecR Operands Ast LangId PluralRules Tables Spec Cldr DigitFacts F64Facts OperandsFacts
  OperandsProps Shortest FloatProps GenFacts GenMeaning Represents Conformance.
Open Scope N_scope.

(** operands of a numeral, without a bound on its precision *)
Lemma numeral_operands s d : numeral s d ->
  (d_frac d = [] -> d_int d <= 2 ^ 53) -> d_int d < 2 ^ 64 -> uts_f d < 2 ^ 64 ->
  exists po, operands_from_str s = Ok po /\ op_n po = dec64 (uts_num d) (- Z.of_N (uts_v d)) /\
    op_i po = uts_i d /\ op_v po = uts_v d /\ op_w po = uts_w d /\ op_f po = uts_f d /\ op_t po = uts_t d.
Proof.
  intros (sg & i & f & S & Di & Ni & Df & -> & ->) B0 B1 B2.
  unfold uts_f in B2. cbn [d_int d_frac] in B0, B1, B2. 
  change (fun c => c - 48) with dig in *. rewrite frac_value_dig in B2.
  destruct f as [|c f].
  - rewrite app_nil_r. cbn [dval List.length List.map] in *. specialize (B0 eq_refl).
    rewrite from_str_int by auto. rewrite f64_of_N_trunc_exact by lia.
    eexists. split; [reflexivity|]. repeat split; try reflexivity.
    unfold uts_num, uts_den, uts_v, uts_f. cbn [op_n d_int d_frac List.length frac_value].
    change (10 ^ N.of_nat 0) with 1. now rewrite N.mul_1_r, N.add_0_r.
  - destruct (trailing_exists (c :: f)) as [g W].
    change (46 :: c :: f) with ([46] ++ c :: f). rewrite (from_str_frac sg i (c :: f) g) by (auto; easy).
    eexists. split; [reflexivity|]. cbn [op_n op_i op_v op_w op_f op_t].
    unfold uts_num, uts_den, uts_i, uts_v, uts_w, uts_f, uts_t. cbn [d_int d_frac].
    rewrite (strip_map _ g Df W), !map_length, !frac_value_dig, dval_app, nat_N_Z. repeat split; reflexivity.
Qed.

(** the decimal [d * 10^E] written without exponent: [-E] digits after the point if [E < 0], none otherwise *)
Definition decimal_of (d : N) (E : Z) (dd : decimal) : Prop :=
  uts_num dd = d * 10 ^ Z.to_N E /\ uts_v dd = Z.to_N (- E) /\ Forall (fun c => c < 10) (d_frac dd).

(** the printed form is a numeral for that decimal *)
Lemma printed_numeral sg d E : minus_opt sg -> 0 < d -> d mod 10 <> 0 ->
  exists dd, numeral (sg ++ digits_to_dec_str (dec_of_N d) E) dd /\ decimal_of d E dd /\
    ((E < 0)%Z -> d_int dd < d /\ uts_f dd <= d) /\ ((0 <= E)%Z -> d_frac dd = [] /\ d_int dd = d * 10 ^ Z.to_N E).
Proof.
  intros S P M.
  destruct (printed d E P M) as [(HE & s & -> & D & N & V)|(HE & i & f & -> & Di & Df & Ni & Nf & L & V & W)].
  - exists (mkDecimal (dval s) []). split.
    { exists sg, s, []. repeat split; auto; [constructor|now rewrite app_nil_r]. }
    unfold decimal_of, uts_num, uts_v, uts_den, uts_f. cbn [d_int d_frac List.length frac_value].
    replace (Z.to_N (- E)) with 0 by lia. cbn [uts_v d_frac]. change (10 ^ N.of_nat 0) with 1.
    rewrite V. split; [split; [change (10 ^ N.of_nat 0) with 1; now rewrite N.mul_1_r, N.add_0_r|]; split; [reflexivity|constructor]|].
    split; [intros; exfalso; lia|intros _; split; reflexivity].
  - exists (mkDecimal (dval i) (List.map dig f)).
    assert (Q : decimal_of d E (mkDecimal (dval i) (List.map dig f))).
    { unfold decimal_of, uts_num, uts_v, uts_den, uts_f, uts_v. cbn [d_int d_frac].
      rewrite map_length, frac_value_dig. rewrite dval_app in V. split; [|split].
      - replace (Z.to_N E) with 0 by lia. lia.
      - lia.
      - now apply dig_lt. }
    split; [|split; [exact Q|split; [|lia]]].
    + exists sg, i, f. repeat split; auto. destruct f; [easy|reflexivity].
    + intros _. destruct (dval_parts i f d V). unfold uts_f. cbn [d_int d_frac]. rewrite frac_value_dig.
      split; [|lia]. rewrite dval_app in V. 
      assert (T : 10 <= 10 ^ N.of_nat (List.length f)).
      { destruct f; [easy|]. cbn [List.length]. rewrite Nat2N.inj_succ, N.pow_succ_r'. 
        assert (10 ^ N.of_nat (List.length f) <> 0) by (apply N.pow_nonzero; lia). lia. }
      nia.
Qed.

Lemma decimal_of_real d E dd : decimal_of d E dd ->
  dec_real (uts_num dd) (- Z.of_N (uts_v dd)) = dec_real d E.
Proof.
  intros (A & B & _). rewrite A, B. destruct (Z.le_gt_cases 0 E).
  - replace (Z.to_N (- E)) with 0 by lia. now rewrite dec_real_shift by lia.
  - replace (Z.to_N E) with 0 by lia. rewrite N.pow_0_r, N.mul_1_r. f_equal. lia.
Qed.

(** a float whose decimal has the largest possible exponent: if it rounds to
    the integer k it is k *)
Lemma f64_represents x : valid64 x -> is_finite_SF x = true -> below_2_53 (SFabs x) ->
  exists d E dd po, shortest_decimal d E (SFabs x) /\ (d = 0 \/ d mod 10 <> 0) /\ decimal_of d E dd /\
    numeral (f64_to_string x) dd /\ operands_from_f64 x = Ok po /\ represents po dd.
Proof.
  intros V F L53. destruct x as [s|s| |s m e]; try discriminate F.
  - exists 0, 0%Z, (mkDecimal 0 []), (operands_from_unsigned 0). split; [|split; [|split; [|split; [|split]]]].
    + split; [|split; [intros ? ? k _ H; exfalso; pose proof (N.pow_nonzero 10 k); lia|intros d' E' _ _; apply closer_zero]].
      left. rewrite Rmult_0_l, round_0 by auto with typeclass_instances. split; [apply bpow_gt_0|].
      cbn. auto.
    + now left.
    + split; [reflexivity|]. split; [reflexivity|constructor].
    + destruct s; [exists (bs "-")|exists []]; exists (bs "0"), []; repeat split; try easy; try (now left); try (now right);
        repeat constructor; unfold digit_char; easy.
    + destruct s; reflexivity.
    + apply unsigned_represents. lia.
  - cbn [SFabs] in *.
    destruct (f64_printed s m e V) as (d & E & Q & X & P & B & M & Mx & Sh & Cl).
    destruct (printed_numeral _ d E (minus_opt_sign s) P M) as (dd & Nu & De & Fr & In0).
    assert (Nu2 : numeral (f64_to_string (S754_finite s m e)) dd) by (rewrite Q; exact Nu). clear Nu. rename Nu2 into Nu.
    assert (R : SF2R radix2 (S754_finite false m e) = rnd64 (dec_real d E) /\ (rnd64 (dec_real d E) < IZR (2 ^ 53))%R).
    { destruct (dec64_correct d E) as [_ C]. rewrite X in C. 
      destruct (Rlt_bool _ _) in C; [|discriminate C]. destruct C as [C _]. split; [exact C|].
      unfold below_2_53 in L53. rewrite C in L53. exact L53. }
    destruct R as [R RL].
    assert (IB : (0 <= E)%Z -> d * 10 ^ Z.to_N E <= 2 ^ 53).
    { intro HE. apply rnd_lt_2_53.
      rewrite <- (Z.add_0_l E), <- (dec_real_shift d 0 E HE), dec_real_int in RL. exact RL. }
    destruct (numeral_operands _ _ Nu) as (po & A & An & Ai & Av & Aw & Af & At).
    { intro K. destruct (Z.le_gt_cases 0 E) as [HE|HE].
      - destruct (In0 HE) as [_ ->]. specialize (IB HE). lia.
      - destruct De as (_ & K2 & _). unfold uts_v in K2. rewrite K in K2. cbn in K2. lia. }
    { destruct (Z.le_gt_cases 0 E) as [HE|HE]; [destruct (In0 HE) as [_ ->]; specialize (IB HE); lia|].
      specialize (Fr HE). lia. }
    { destruct (Z.le_gt_cases 0 E) as [HE|HE]; [destruct (In0 HE) as [K _]; unfold uts_f; rewrite K; cbn; lia|].
      specialize (Fr HE). lia. }
    exists d, E, dd, po. split; [|split; [|split; [|split; [|split]]]]; auto.
    { split; [now apply nearest64_dec|]. split; [intros d' E' k H L; apply nearest64_dec in H; eauto|].
      intros d' E' H L. apply nearest64_dec in H. now apply Cl. }
    apply represents_of; auto.
    assert (Y : op_n po = S754_finite false m e).
    { rewrite An, <- X. apply (dec_to_float_value 53 1024 _ _). now apply decimal_of_real. }
    rewrite Y. apply (compares_real _ (dec_real d E)); auto.
    + unfold uts_den. apply N.neq_0_lt_0, N.pow_nonzero. lia.
    + rewrite <- (decimal_of_real d E dd De). unfold uts_den, dec_real. rewrite bpow10_N, bpow_opp.
      field. apply Rgt_not_eq, bpow_gt_0.
    + intros k K H. 
      assert (HE : (0 <= E)%Z).
      { apply (Mx k). apply int_dec64; auto. now rewrite R, H. }
      assert (DE : dec_real d E = IZR (Z.of_N (d * 10 ^ Z.to_N E))).
      { rewrite <- (Z.add_0_l E) at 1. now rewrite <- (dec_real_shift d 0 E HE), dec_real_int. }
      rewrite DE in *.
      specialize (IB HE). now rewrite rnd64_int in H by lia.
Qed.

Lemma follows_f64 how id t pr w x :
  create how id t = Ok pr -> valid64 x -> is_finite_SF x = true -> below_2_53 (SFabs x) ->
  ~ List.In id (integer_wrong t) ->
  exists d E dd, shortest_decimal d E (SFabs x) /\ (d = 0 \/ d mod 10 <> 0) /\ decimal_of d E dd /\
    ((List.In id (fraction_wrong t) -> integral dd = true) ->
     exists rules c, List.In (id, rules) (cldr t) /\ select w pr (InF64 x) = Ok c /\ cldr_select rules dd c).
Proof.
  intros C V F L NI. destruct (f64_represents x V F L) as (d & E & dd & po & A1 & A2 & A3 & A4 & A5 & A6).
  exists d, E, dd. split; [auto|]. split; [auto|]. split; [auto|]. intros NF.
  apply (follows how id t pr w (InF64 x) po dd); auto.
  - eapply numeral_proper; eauto.
  - intros H. apply NF in H. unfold integral in H. now apply N.eqb_eq.
Qed.

(** ** binary32 *)
Notation fexp32 := (SpecFloat.fexp 24 128).
Notation rnd32 := (round radix2 fexp32 ZnearestE).
Notation dec32 := (dec_to_float 24 128 false).

Lemma nearest32_iff m e d E : SpecFloat.bounded 24 128 m e = true ->
  (nearest32 (dec_real d E) (S754_finite false m e) <-> dec32 d E = S754_finite false m e).
Proof.
  intros B. rewrite (decf_iff 24 128 _ _ m e B). unfold nearest32. cbv zeta.
  change (FLT_exp (-149) 24) with fexp32. split.
  - intros [(_ & _ & _ & H & _)|[_ H]]; [now rewrite <- H|discriminate H].
  - intros H. left. rewrite H. split; [apply (x_lt_emax 24 128 m e B)|]. auto.
Qed.

(** nine digits are enough *)
Lemma short32 m e : SpecFloat.bounded 24 128 m e = true ->
  exists d' E', dec32 d' E' = S754_finite false m e /\ d' < 10 ^ 10 /\ (-60 < E')%Z.
Proof.
  intros B. pose proof (x_pos m e) as XP. set (x := F2R (Float radix2 (Zpos m) e)) in *.
  set (q := mag radix10 x : Z).
  assert (Q1 : (bpow radix10 (q - 1) <= x)%R).
  { pose proof (bpow_mag_le radix10 x) as H. rewrite Rabs_pos_eq in H by lra. apply H. lra. }
  assert (Q2 : (x < bpow radix10 q)%R).
  { pose proof (bpow_mag_gt radix10 x) as H. rewrite Rabs_pos_eq in H by lra. exact H. }
  destruct (cand_bounds 24 128 ltac:(lia) ltac:(lia) ltac:(lia) m e B (q - 10)) as [B1 B2]. fold x in B1, B2.
  exists (cand_lo m e (q - 10)), (q - 10)%Z. split; [|split].
  - apply (decf_iff 24 128 _ _ m e B). apply (round_close 24 128 _ m e B). fold x. split; [|exact B1].
    unfold dec_real in *. rewrite N2Z.inj_add, plus_IZR in B2. change (IZR (Z.of_N 1)) with 1%R in B2.
    assert (S : (bpow radix10 (q - 10) <= bpow radix2 (e - 2))%R); [|lra].
    assert (T : (bpow radix10 (q - 10) = bpow radix10 (q - 1) * bpow radix10 (-9))%R).
    { rewrite <- bpow_plus. f_equal. lia. }
    rewrite T. apply Rle_trans with (bpow radix2 (e + 24) * bpow radix10 (-9))%R.
    + apply Rmult_le_compat_r; [apply bpow_ge_0|].
      pose proof (x_lt_prec 24 128 m e B) as L. fold x in L. lra.
    + replace (e - 2)%Z with (e + 24 + -26)%Z by lia.
      rewrite (bpow_plus radix2 (e + 24)). apply Rmult_le_compat_l; [apply bpow_ge_0|].
      change (/ IZR (10 ^ 9) <= / IZR (2 ^ 26))%R. apply Rinv_le; [apply IZR_lt; lia|].
      apply IZR_le. lia.
  - assert (L : (dec_real (cand_lo m e (q - 10)) (q - 10) < bpow radix10 q)%R) by lra.
    replace q with (10 + (q - 10))%Z in L at 3 by lia. unfold dec_real in L. rewrite bpow_plus in L.
    apply Rmult_lt_reg_r in L; [|apply bpow_gt_0]. change (bpow radix10 10) with (IZR (10 ^ 10)) in L.
    apply lt_IZR in L. lia.
  - assert (L : (-46 < q)%Z); [|lia].
    apply (lt_bpow radix10). apply Rle_lt_trans with x; [|exact Q2].
    apply Rle_trans with (bpow radix2 e); [|apply (x_ge 24 128 m e B)].
    apply Rle_trans with (bpow radix2 (-149)).
    + change (-46)%Z with (- (46))%Z. change (-149)%Z with (- (149))%Z. rewrite !bpow_opp.
      apply Rinv_le; [apply bpow_gt_0|].
      rewrite <- (IZR_Zpower radix10), <- (IZR_Zpower radix2) by lia. apply IZR_le.
      apply Z.leb_le. vm_compute. reflexivity.
    + apply bpow_le. pose proof (x_exp 24 128 m e B) as H. unfold SpecFloat.fexp, emin in H. lia.
Qed.

Lemma f32_printed' s m e : SpecFloat.bounded 24 128 m e = true ->
  exists d E, f32_to_string (S754_finite s m e) = (if s then bs "-" else []) ++ digits_to_dec_str (dec_of_N d) E /\
  dec32 d E = S754_finite false m e /\ 0 < d < 10 ^ 10 /\ d mod 10 <> 0 /\ (-60 < E)%Z /\
  (forall k d' E', 10 ^ k <= d -> dec32 d' E' = S754_finite false m e -> 10 ^ k <= d') /\
  (forall d' E', dec32 d' E' = S754_finite false m e -> (E <= E')%Z ->
     closer (SF2R radix2 (S754_finite false m e)) (dec_real d E) (dec_real d' E')).
Proof.
  intros B. unfold f32_to_string, float_to_string.
  destruct (shortest_result 24 128 _ _ ltac:(lia) ltac:(lia) ltac:(lia) m e B)
    as (d & E & H & A1 & A2 & A3 & _ & A4 & A5 & A6 & A7).
  destruct (short32 m e B) as (d' & E' & S1 & S2 & S3).
  rewrite H. exists d, E. split; [reflexivity|]. split; [auto|]. split; [|split; [auto|split; [|auto]]].
  - split; [auto|]. destruct (N.le_gt_cases (10 ^ 10) d) as [L|L]; [|exact L]. 
    specialize (A6 10 d' E' L S1). lia.
  - specialize (A5 d' E' S1). lia.
Qed.

(** the value of a 32-bit float and of its decimal are on the same side of 2^53 *)
Lemma f32_represents x : valid32 x -> is_finite_SF x = true -> below_2_53 (SFabs x) ->
  exists d E dd po, shortest_decimal32 d E (SFabs x) /\ (d = 0 \/ d mod 10 <> 0) /\ decimal_of d E dd /\
    numeral (f32_to_string x) dd /\ operands_from_f32 x = Ok po /\ represents po dd.
Proof.
  intros V F L53. destruct x as [s|s| |s m e]; try discriminate F.
  - exists 0, 0%Z, (mkDecimal 0 []), (operands_from_unsigned 0). split; [|split; [|split; [|split; [|split]]]].
    + split; [|split; [intros ? ? k _ H; exfalso; pose proof (N.pow_nonzero 10 k); lia|intros d' E' _ _; apply closer_zero]].
      left. rewrite Rmult_0_l, round_0 by auto with typeclass_instances. split; [apply bpow_gt_0|].
      cbn. auto.
    + now left.
    + split; [reflexivity|]. split; [reflexivity|constructor].
    + destruct s; [exists (bs "-")|exists []]; exists (bs "0"), []; repeat split; try easy; try (now left); try (now right);
        repeat constructor; unfold digit_char; easy.
    + destruct s; reflexivity.
    + apply unsigned_represents. lia.
  - cbn [SFabs] in *.
    destruct (f32_printed' s m e V) as (d & E & Q & X & P & M & LE & Sh & Cl).
    destruct (printed_numeral _ d E (minus_opt_sign s) (proj1 P) M) as (dd & Nu & De & Fr & In0).
    assert (Nu2 : numeral (f32_to_string (S754_finite s m e)) dd) by (rewrite Q; exact Nu). clear Nu. rename Nu2 into Nu.
    assert (R : rnd32 (dec_real d E) = SF2R radix2 (S754_finite false m e)) by (apply (decf_iff 24 128 _ _ m e V); exact X).
    unfold below_2_53 in L53. rewrite <- R in L53.
    assert (Lt : (dec_real d E < IZR (2 ^ 53))%R).
    { apply Rnot_le_lt. intros K. apply (Rlt_not_le _ _ L53).
      apply round_ge_generic; auto with typeclass_instances.
      apply (generic_format_bpow radix2 fexp32 53). vm_compute. discriminate. }
    assert (Sm : small dd).
    { destruct De as (D1 & D2 & _). split; [|rewrite D2; lia]. rewrite D1.
      destruct (Z.le_gt_cases 0 E) as [HE|HE].
      - rewrite <- (Z.add_0_l E), <- (dec_real_shift d 0 E HE), dec_real_int in Lt. apply lt_IZR in Lt. lia.
      - replace (Z.to_N E) with 0 by lia. rewrite N.pow_0_r, N.mul_1_r. lia. }
    destruct (numeral_represents _ _ Nu Sm) as (po & A & Rp).
    exists d, E, dd, po. split; [|split; [|split; [|split; [|split]]]]; auto.
    split; [now apply nearest32_iff|]. split; [intros d' E' k H L; apply nearest32_iff in H; eauto|].
    intros d' E' H L. apply nearest32_iff in H; auto. now apply Cl.
Qed.

Lemma follows_f32 how id t pr w x :
  create how id t = Ok pr -> valid32 x -> is_finite_SF x = true -> below_2_53 (SFabs x) ->
  ~ List.In id (integer_wrong t) ->
  exists d E dd, shortest_decimal32 d E (SFabs x) /\ (d = 0 \/ d mod 10 <> 0) /\ decimal_of d E dd /\
    ((List.In id (fraction_wrong t) -> integral dd = true) ->
     exists rules c, List.In (id, rules) (cldr t) /\ select w pr (InF32 x) = Ok c /\ cldr_select rules dd c).
Proof.
  intros C V F L NI. destruct (f32_represents x V F L) as (d & E & dd & po & A1 & A2 & A3 & A4 & A5 & A6).
  exists d, E, dd. split; [auto|]. split; [auto|]. split; [auto|]. intros NF.
  apply (follows how id t pr w (InF32 x) po dd); auto.
  - eapply numeral_proper; eauto.
  - intros H. apply NF in H. unfold integral in H. now apply N.eqb_eq.
Qed.

(** ** Long numerals *)

(** no rounding to an integer: the binary64 number nearest to a proper
    fraction is not an integer *)
Definition fraction_survives (d : decimal) : Prop :=
  forall y k, nearest64 (exact_value (uts_num d) (List.length (d_frac d))) y ->
    SF2R radix2 y = IZR (Z.of_N k) -> uts_f d = 0.

Lemma exact_value_real m v : exact_value m v = dec_real m (- Z.of_nat v).
Proof.
  unfold exact_value, dec_real. rewrite bpow_opp. rewrite (IZR_Zpower radix10) by lia. reflexivity.
Qed.

Lemma long_represents s d : numeral s d -> d_int d < 2 ^ 53 -> uts_f d < 2 ^ 64 -> fraction_survives d ->
  exists po, operands_from_str s = Ok po /\ represents po d.
Proof.
  intros Nu B1 B2 FS.
  assert (PR := numeral_proper _ _ Nu).
  destruct (numeral_operands s d Nu) as (po & A & An & Ai & Av & Aw & Af & At); [lia|lia|auto|].
  exists po. split; [exact A|]. apply represents_of; auto. rewrite An.
  assert (Dp := den_pos d).
  assert (FD : uts_f d < uts_den d) by (rewrite <- (num_mod d PR); apply N.mod_lt; lia).
  assert (P : (0 < bpow radix10 (Z.of_N (uts_v d)))%R) by apply bpow_gt_0.
  assert (Y : (dec_real (uts_num d) (- Z.of_N (uts_v d)) * IZR (Z.of_N (uts_den d)) = IZR (Z.of_N (uts_num d)))%R).
  { unfold uts_den, dec_real. rewrite bpow10_N, bpow_opp. field. lra. }
  assert (Lt : (dec_real (uts_num d) (- Z.of_N (uts_v d)) < IZR (2 ^ 53))%R).
  { apply (Rmult_lt_reg_r (IZR (Z.of_N (uts_den d)))); [apply IZR_lt; lia|]. rewrite Y, <- mult_IZR.
    apply IZR_lt. unfold uts_num. nia. }
  destruct (dec64_finite (uts_num d) (- Z.of_N (uts_v d))) as (F1 & F2 & F3).
  { rewrite IZR_bpow2 by lia. apply Rle_trans with (IZR (2 ^ 53)); [lra|].
    apply IZR_le. apply Z.pow_le_mono_r; lia. }
  apply (compares_real _ (dec_real (uts_num d) (- Z.of_N (uts_v d)))); auto.
  - apply (valid_dec_to_float 53 1024 _ _).
  - intros k K H.
    assert (F0 : uts_f d = 0).
    { apply (FS (dec64 (uts_num d) (- Z.of_N (uts_v d))) k).
      - rewrite exact_value_real. apply nearest64_dec. unfold uts_v. now rewrite nat_N_Z.
      - now rewrite F1. }
    assert (E : uts_num d = uts_i d * uts_den d) by (unfold uts_num; rewrite F0; apply N.add_0_r).
    assert (Q : dec_real (uts_num d) (- Z.of_N (uts_v d)) = IZR (Z.of_N (uts_i d))).
    { apply (Rmult_eq_reg_r (IZR (Z.of_N (uts_den d)))); [|apply Rgt_not_eq, IZR_lt; lia].
      now rewrite Y, E, N2Z.inj_mul, mult_IZR. }
    rewrite Q in *. rewrite rnd64_int in H; [exact H|]. unfold uts_i. lia.
Qed.

Lemma follows_long how id t pr w s d :
  create how id t = Ok pr -> numeral s d -> d_int d < 2 ^ 53 -> uts_f d < 2 ^ 64 -> fraction_survives d ->
  ~ List.In id (integer_wrong t) -> (List.In id (fraction_wrong t) -> integral d = true) ->
  exists rules c, List.In (id, rules) (cldr t) /\ select w pr (InStr s) = Ok c /\ cldr_select rules d c.
Proof.
  intros C Nm B1 B2 FS NI NF. destruct (long_represents s d Nm B1 B2 FS) as (po & E & R).
  apply (follows how id t pr w (InStr s) po d); auto.
  - exact (numeral_proper s d Nm).
  - intro H. now apply N.eqb_eq, NF.
Qed.

(** a way to show it *)
Lemma survives d m p : dec64 (uts_num d) (- Z.of_nat (List.length (d_frac d))) = S754_finite false m (Zneg p) ->
  (Zpos m mod 2 ^ Zpos p <> 0)%Z -> fraction_survives d.
Proof.
  intros H M y k NE K. exfalso. rewrite exact_value_real in NE. apply nearest64_dec in NE. rewrite H in NE. subst y.
  apply M. apply Z.mod_divide; [apply Z.pow_nonzero; lia|]. exists (Z.of_N k). apply eq_IZR.
  rewrite mult_IZR, <- K. cbn [SF2R]. unfold F2R. cbn [Fnum Fexp cond_Zopp].
  rewrite (IZR_Zpower radix2) by lia. change (Zneg p) with (- Zpos p)%Z. rewrite bpow_opp. field.
  apply Rgt_not_eq, bpow_gt_0.
Qed.
