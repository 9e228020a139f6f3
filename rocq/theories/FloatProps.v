(** * Properties C16-C20: conversions from floats *)
From Coq Require Import Reals Floats.SpecFloat Lra ZifyBool ZifyN ZifyNat.
From Flocq Require Import Core IEEE754.BinarySingleNaN.
From Verif Require Import Base F64 SpecR F64Facts Shortest Operands Ast Spec DigitFacts OperandsFacts OperandsProps.
Import ListNotations.
Open Scope N_scope.

(** ** Shape of the printed decimal *)
Lemma printed d E : 0 < d -> d mod 10 <> 0 ->
  ((0 <= E)%Z /\ exists s, digits_to_dec_str (dec_of_N d) E = s /\ digits s /\ s <> [] /\ dval s = d * 10 ^ Z.to_N E)
  \/
  ((E < 0)%Z /\ exists i f, digits_to_dec_str (dec_of_N d) E = i ++ [46] ++ f /\
     digits i /\ digits f /\ i <> [] /\ f <> [] /\ Z.of_nat (List.length f) = (- E)%Z /\
     dval (i ++ f) = d /\ without_trailing_zeros f f).
Proof.
  intros P M. destruct (dec_of_N_spec d) as (D & V & Nn & _ & _).
  remember (dec_of_N d) as ds eqn:Eds. clear Eds.
  unfold digits_to_dec_str. set (len := Z.of_nat (List.length ds)). cbv zeta.
  assert (NT : forall a f, a ++ f = ds -> f <> [] -> without_trailing_zeros f f).
  { intros a f Ea Nf. split; [exists O; cbn; now rewrite app_nil_r|].
    intros g K. apply M. rewrite <- V, <- Ea, K, app_assoc, dval_snoc0. apply N.mod_mul. lia. }
  destruct (Z.leb_spec (len + E) 0) as [L|L].
  - right. assert (0 < len)%Z by (unfold len; destruct ds; [easy|cbn [List.length]; lia]). split; [lia|].
    exists [48], (repeat 48 (Z.to_nat (- (len + E))) ++ ds).
    split; [reflexivity|].
    split; [constructor; [unfold digit_char; lia|constructor]|].
    split; [apply digits_app; split; [apply digits_repeat0|exact D]|].
    split; [easy|]. split; [intros K; apply app_eq_nil in K; tauto|].
    split; [rewrite app_length, repeat_length; unfold len in *; lia|].
    split.
    + rewrite app_assoc. change ([48] ++ repeat 48 (Z.to_nat (- (len + E)))) with (repeat 48 (S (Z.to_nat (- (len + E))))).
      rewrite dval_app, dval_repeat0. lia.
    + split; [exists O; cbn; now rewrite app_nil_r|].
      intros g K. destruct (exists_last Nn) as (a & c & Ea).
      rewrite Ea, app_assoc in K. apply app_inj_tail in K as [_ ->].
      apply M. rewrite <- V, Ea, dval_snoc0. apply N.mod_mul. lia.
  - destruct (Z.ltb_spec (len + E) len) as [L2|L2].
    + right. split; [lia|].
      exists (firstn (Z.to_nat (len + E)) ds), (skipn (Z.to_nat (len + E)) ds).
      assert (FS := firstn_skipn (Z.to_nat (len + E)) ds).
      assert (LS : Z.of_nat (List.length (skipn (Z.to_nat (len + E)) ds)) = (- E)%Z)
        by (rewrite skipn_length; unfold len in *; lia).
      assert (LF : Z.of_nat (List.length (firstn (Z.to_nat (len + E)) ds)) = (len + E)%Z)
        by (rewrite firstn_length; unfold len in *; lia).
      assert (DD : digits (firstn (Z.to_nat (len + E)) ds) /\ digits (skipn (Z.to_nat (len + E)) ds))
        by (apply digits_app; now rewrite FS).
      assert (NS : skipn (Z.to_nat (len + E)) ds <> []) by (intros K; rewrite K in LS; cbn in LS; lia).
      repeat split; try tauto.
      * intros K. rewrite K in LF. cbn in LF. lia.
      * now rewrite FS.
      * exists O. cbn. now rewrite app_nil_r.
      * apply (NT _ _ FS NS).
    + left. split; [lia|]. eexists. split; [reflexivity|].
      split; [apply digits_app; split; [exact D|apply digits_repeat0]|].
      split; [intros K; apply app_eq_nil in K; tauto|].
      rewrite dval_app, dval_repeat0, repeat_length, V.
      replace (N.of_nat (Z.to_nat E)) with (Z.to_N E) by lia. lia.
Qed.


Lemma minus_opt_sign (s : bool) : minus_opt (if s then bs "-" else []).
Proof. destruct s; [now right|now left]. Qed.

Lemma dval_parts i f d : dval (i ++ f) = d -> dval i <= d /\ dval f <= d.
Proof.
  intros <-. rewrite dval_app.
  assert (0 < 10 ^ N.of_nat (List.length f)) by (apply N.neq_0_lt_0, N.pow_nonzero; lia). nia.
Qed.

(** operands of the printed form of [d * 10^E] *)
Lemma from_printed sg d E : minus_opt sg -> 0 < d -> d mod 10 <> 0 -> d < 2 ^ 64 ->
  operands_from_str (sg ++ digits_to_dec_str (dec_of_N d) E) =
  Ok (let n := dec64 d E in
      let v := Z.to_N (- E) in
      if (E <? 0)%Z
      then mkOps n (d / 10 ^ v) v v (d mod 10 ^ v) (d mod 10 ^ v)
      else mkOps n (float_to_u64 n) 0 0 0 0).
Proof.
  intros S P M B. cbv zeta.
  destruct (printed d E P M) as [(HE & s & -> & D & N & V)|(HE & i & f & -> & Di & Df & Ni & Nf & L & V & W)].
  - destruct (Z.ltb_spec E 0); [lia|].
    rewrite from_str_int by auto. 
    assert (X : f64_of_N (dval s) = dec64 d E).
    { unfold f64_of_N. apply (dec_to_float_value 53 1024 _ _). rewrite V. now apply dec_real_shift. }
    now rewrite X.
  - destruct (Z.ltb_spec E 0); [|lia].
    destruct (dval_parts i f d V).
    rewrite (from_str_frac sg i f f) by (auto; lia). rewrite V, L, Z.opp_involutive.
    replace (N.of_nat (List.length f)) with (Z.to_N (- E)) by lia.
    assert (F := dval_lt f Df). replace (N.of_nat (List.length f)) with (Z.to_N (- E)) in F by lia.
    rewrite dval_app in V. replace (N.of_nat (List.length f)) with (Z.to_N (- E)) in V by lia.
    assert (Q : d / 10 ^ Z.to_N (- E) = dval i /\ d mod 10 ^ Z.to_N (- E) = dval f).
    { rewrite <- V. rewrite (N.add_comm (_ * _)).
      split; [rewrite N.div_add, N.div_small by lia; lia|rewrite N.mod_add, N.mod_small by lia; reflexivity]. }
    destruct Q as [-> ->]. reflexivity.
Qed.

Lemma f64_printed s m e : SpecFloat.bounded 53 1024 m e = true ->
  exists d E, f64_to_string (S754_finite s m e) = (if s then bs "-" else []) ++ digits_to_dec_str (dec_of_N d) E /\
  dec64 d E = S754_finite false m e /\ 0 < d /\ d < 2 ^ 64 /\ d mod 10 <> 0 /\
  (forall d' E', dec64 d' E' = S754_finite false m e -> (E' <= E)%Z) /\
  (forall k d' E', 10 ^ k <= d -> dec64 d' E' = S754_finite false m e -> 10 ^ k <= d') /\
  (forall d' E', dec64 d' E' = S754_finite false m e -> (E <= E')%Z ->
     closer (SF2R radix2 (S754_finite false m e)) (dec_real d E) (dec_real d' E')).
Proof.
  intros B. unfold f64_to_string, float_to_string.
  destruct (shortest_result 53 1024 _ _ ltac:(lia) ltac:(lia) ltac:(lia) m e B)
    as (d & E & H & A1 & A2 & A3 & _ & A4 & A5 & A6 & A7).
  rewrite H. exists d, E. auto 10.
Qed.
Lemma f32_printed s m e : SpecFloat.bounded 24 128 m e = true ->
  exists d E, f32_to_string (S754_finite s m e) = (if s then bs "-" else []) ++ digits_to_dec_str (dec_of_N d) E /\
  dec_to_float 24 128 false d E = S754_finite false m e /\ 0 < d /\ d < 2 ^ 64 /\ d mod 10 <> 0.
Proof.
  intros B. unfold f32_to_string, float_to_string.
  destruct (shortest_result 24 128 _ _ ltac:(lia) ltac:(lia) ltac:(lia) m e B)
    as (d & E & H & A1 & A2 & A3 & _ & A4 & A5 & A6 & _).
  rewrite H. exists d, E. auto 8.
Qed.

Lemma C16_f64 x : valid64 x -> is_finite_SF x = true -> exists po, operands_from_f64 x = Ok po.
Proof.
  intros V F. destruct x as [s|s| |s m e]; try discriminate F.
  - destruct s; eexists; reflexivity.
  - unfold operands_from_f64.
    destruct (f64_printed s m e V) as (d & E & -> & _ & P & B & M & _).
    rewrite from_printed by (auto using minus_opt_sign). eauto.
Qed.
Lemma C16_f32 x : valid32 x -> is_finite_SF x = true -> exists po, operands_from_f32 x = Ok po.
Proof.
  intros V F. destruct x as [s|s| |s m e]; try discriminate F.
  - destruct s; eexists; reflexivity.
  - unfold operands_from_f32.
    destruct (f32_printed s m e V) as (d & E & -> & _ & P & B & M).
    rewrite from_printed by (auto using minus_opt_sign). eauto.
Qed.

Lemma C17_lemma x po : valid64 x -> is_finite_SF x = true -> operands_from_f64 x = Ok po -> op_n po = SFabs x.
Proof.
  intros V F. destruct x as [s|s| |s m e]; try discriminate F.
  - destruct s; intros H; injection H as <-; reflexivity.
  - unfold operands_from_f64.
    destruct (f64_printed s m e V) as (d & E & -> & X & P & B & M & _).
    rewrite from_printed by (auto using minus_opt_sign). cbv zeta. rewrite X.
    intros H. injection H as <-. destruct (E <? 0)%Z; reflexivity.
Qed.

(** ** C18 *)
Lemma dec64_nearest' d E : nearest64 (dec_real d E) (dec64 d E).
Proof.
  unfold nearest64. cbv zeta. change (FLT_exp (-1074) 53) with fexp64.
  destruct (dec64_correct d E) as [V C].
  destruct (Rlt_bool_spec (rnd64 (dec_real d E)) (bpow radix2 1024)) as [L|L].
  - left. destruct C as (A & B & D). auto 6.
  - right. auto.
Qed.
Lemma nearest64_unique x y y' : nearest64 x y -> nearest64 x y' -> y = y'.
Proof.
  unfold nearest64. cbv zeta. intros [(A & B & C & D & F)|[A B]] [(A' & B' & C' & D' & F')|[A' B']].
  - apply (SF_inj 53 1024); congruence.
  - lra.
  - lra.
  - congruence.
Qed.
Lemma nearest64_dec d E y : nearest64 (dec_real d E) y <-> dec64 d E = y.
Proof.
  split; [|intros <-; apply dec64_nearest'].
  intros H. eapply nearest64_unique; [apply dec64_nearest'|exact H].
Qed.

Lemma rnd_lt_2_53 D : (rnd64 (IZR (Z.of_N D)) < IZR (2 ^ 53))%R -> D <= 2 ^ 53.
Proof.
  intros H. destruct (N.le_gt_cases D (2 ^ 53)) as [L|L]; [exact L|exfalso].
  assert (K : (rnd64 (IZR (2 ^ 53)) <= rnd64 (IZR (Z.of_N D)))%R).
  { apply round_le; auto with typeclass_instances. apply IZR_le. lia. }
  rewrite rnd64_int in K by lia. lra.
Qed.

Lemma closer_zero s d E r : closer (SF2R radix2 (S754_zero s)) (IZR (Z.of_N 0) * r) (IZR (Z.of_N d) * bpow radix10 E).
Proof.
  unfold closer. cbn [SF2R]. rewrite Rmult_0_l, !Rminus_0_r, Rabs_R0.
  destruct (Rtotal_order 0 (IZR (Z.of_N d) * bpow radix10 E)) as [H|[H|H]].
  - left. rewrite Rabs_pos_eq; lra.
  - right. rewrite <- H, Rabs_R0. split; lra.
  - left. rewrite Rabs_left; lra.
Qed.
Lemma C18_lemma x : valid64 x -> is_finite_SF x = true -> SFabs x <> S754_zero false ->
  exists d E, shortest_decimal d E (SFabs x) /\ d mod 10 <> 0 /\
  let v := Z.to_N (- E) in
  exists n i, operands_from_f64 x = Ok (mkOps n i v v (d mod 10 ^ v) (d mod 10 ^ v)) /\
  (below_2_53 (SFabs x) -> i = d * 10 ^ Z.to_N E / 10 ^ v).
Proof.
  intros V F Z0. destruct x as [s|s| |s m e]; try discriminate F.
  - destruct s; elim Z0; reflexivity.
  - cbn [SFabs] in *. unfold operands_from_f64.
    destruct (f64_printed s m e V) as (d & E & -> & X & P & B & M & _ & Sh & Cl).
    exists d, E. split.
    { split; [now apply nearest64_dec|]. split; [intros d' E' k H L; apply nearest64_dec in H; eauto|].
      intros d' E' H L. apply nearest64_dec in H. now apply Cl. }
    split; [exact M|]. cbv zeta.
    rewrite from_printed by (auto using minus_opt_sign). cbv zeta.
    destruct (Z.ltb_spec E 0) as [L|L].
    + eexists _, _. split; [reflexivity|]. intros _. replace (Z.to_N E) with 0 by lia.
      rewrite N.pow_0_r, N.mul_1_r. reflexivity.
    + replace (Z.to_N (- E)) with 0 by lia. rewrite N.pow_0_r, N.mod_1_r, N.div_1_r.
      eexists _, _. split; [reflexivity|]. intros Bl.
      assert (Y : dec64 d E = f64_of_N (d * 10 ^ Z.to_N E)).
      { unfold f64_of_N. apply (dec_to_float_value 53 1024 _ _). symmetry. now apply dec_real_shift. }
      rewrite Y. apply f64_of_N_trunc_exact. apply rnd_lt_2_53.
      unfold below_2_53 in Bl. rewrite <- X, Y in Bl. unfold f64_of_N in Bl.
      destruct (dec64_correct (d * 10 ^ Z.to_N E) 0) as [_ C]. rewrite dec_real_int in C.
      destruct (Rlt_bool _ _) in C.
      * destruct C as [C _]. now rewrite C in Bl.
      * exfalso. fold (f64_of_N (d * 10 ^ Z.to_N E)) in C. rewrite <- Y, X in C. discriminate.
Qed.

(** integer part of a float: exact, saturated *)
Lemma floor_between y x : (forall k, (0 <= k <= 2 ^ 53)%Z -> (IZR k <= x)%R -> (IZR k <= y)%R) ->
  (forall k, (0 <= k <= 2 ^ 53)%Z -> (x < IZR k)%R -> (y < IZR k)%R) ->
  (0 <= x < IZR (2 ^ 53))%R -> Zfloor y = Zfloor x.
Proof.
  intros H1 H2 B. set (k := Zfloor x).
  assert (K1 : (IZR k <= x)%R) by apply Zfloor_lb.
  assert (K2 : (x < IZR (k + 1))%R) by (rewrite plus_IZR; apply Zfloor_ub).
  assert (R0 : (0 <= k)%Z) by (unfold k; apply Zfloor_lub; simpl; lra).
  assert (R1 : (k < 2 ^ 53)%Z) by (apply lt_IZR; lra).
  apply Zfloor_imp. split.
  - apply H1; [lia|exact K1].
  - apply H2; [lia|exact K2].
Qed.
Lemma int_dec64 k y : valid64 y -> is_finite_SF y = true -> sign_SF y = false ->
  SF2R radix2 y = IZR (Z.of_N k) -> dec64 k 0 = y.
Proof.
  intros V F S E. apply nearest64_dec. unfold nearest64. cbv zeta. left.
  change (FLT_exp (-1074) 53) with fexp64. rewrite dec_real_int, <- E.
  assert (G : generic_format radix2 fexp64 (SF2R radix2 y)).
  { destruct y as [s|s| |s m e]; try discriminate F; [cbn; apply generic_format_0|].
    apply generic_format_canonical. exact (canonical_bounded 53 1024 s m e V). }
  rewrite round_generic by auto with typeclass_instances.
  repeat split; auto.
  destruct y as [s|s| |s m e]; try discriminate F; [apply bpow_gt_0|].
  cbn in S. subst s. apply (bounded_lt_emax 53 1024). exact V.
Qed.

Lemma C60_lemma x : valid64 x -> is_finite_SF x = true ->
  exists po, operands_from_f64 x = Ok po /\
  Z.of_N (op_i po) = Z.min (Zfloor (Rabs (SF2R radix2 x))) (2 ^ 64 - 1).
Proof.
  intros V F. destruct x as [s|s| |s m e]; try discriminate F.
  - destruct s; eexists; (split; [reflexivity|]); cbn [op_i SF2R];
      rewrite Rabs_R0; change 0%R with (IZR 0); rewrite Zfloor_IZR; reflexivity.
  - unfold operands_from_f64.
    destruct (f64_printed s m e V) as (d & E & -> & X & P & B & M & Mx & _).
    rewrite from_printed by (auto using minus_opt_sign). eexists. split; [reflexivity|]. cbv zeta.
    set (r := F2R (Float radix2 (Zpos m) e)).
    assert (Rr : SF2R radix2 (S754_finite false m e) = r) by reflexivity.
    assert (R0 : (0 < r)%R) by (apply F2R_gt_0; reflexivity).
    assert (RA : Rabs (SF2R radix2 (S754_finite s m e)) = r).
    { cbn [SF2R]. rewrite <- F2R_Zabs, abs_cond_Zopp. reflexivity. }
    rewrite RA.
    destruct (Z.ltb_spec E 0) as [L|L]; cbn [op_i].
    + (* not an integer *)
      assert (NI : forall k, (0 <= k)%Z -> r <> IZR k).
      { intros k Hk K.
        assert (Y : dec64 (Z.to_N k) 0 = S754_finite false m e).
        { apply int_dec64; auto. rewrite Rr, Z2N.id by lia. exact K. }
        apply Mx in Y. lia. }
      assert (Em : (e < 0)%Z).
      { destruct (Z.lt_ge_cases e 0) as [Q|Q]; [exact Q|exfalso].
        apply (NI (Zpos m * 2 ^ e)%Z).
        - apply Z.mul_nonneg_nonneg; [lia|apply Z.pow_nonneg; lia].
        - unfold r, F2R. cbn [Fnum Fexp]. rewrite mult_IZR, IZR_bpow2 by lia. reflexivity. }
      assert (Rb : (0 <= r < IZR (2 ^ 53))%R).
      { split; [lra|]. rewrite <- IZR_bpow2 by lia.
        apply Rlt_le_trans with (bpow radix2 (e + 53)).
        - apply (x_lt_prec 53 1024 m e V).
        - apply bpow_le. lia. }
      assert (RY : rnd64 (dec_real d E) = r).
      { apply (decf_iff 53 1024 _ _ m e V). exact X. }
      assert (FL : Zfloor (dec_real d E) = Zfloor r).
      { apply floor_between; [| |exact Rb].
        - intros k Hk K. destruct (Rle_or_lt (IZR k) (dec_real d E)) as [Q|Q]; [exact Q|exfalso].
          assert (rnd64 (dec_real d E) <= rnd64 (IZR k))%R by (apply round_le; auto with typeclass_instances; lra).
          rewrite rnd64_int in H by lia. apply (NI k ltac:(lia)). lra.
        - intros k Hk K. destruct (Rlt_or_le (dec_real d E) (IZR k)) as [Q|Q]; [exact Q|exfalso].
          assert (rnd64 (IZR k) <= rnd64 (dec_real d E))%R by (apply round_le; auto with typeclass_instances; lra).
          rewrite rnd64_int in H by lia. lra. }
      rewrite <- FL.
      assert (DV : Zfloor (dec_real d E) = Z.of_N (d / 10 ^ Z.to_N (- E))).
      { rewrite N2Z.inj_div, N2Z.inj_pow, Z2N.id by lia. change (Z.of_N 10) with 10%Z.
        rewrite <- Zfloor_div by (apply Z.pow_nonzero; lia).
        f_equal. unfold dec_real, Rdiv. f_equal.
        replace E with (- - E)%Z at 1 by lia. rewrite bpow_opp. f_equal.
        rewrite <- (IZR_Zpower radix10) by lia. reflexivity. }
      rewrite DV. rewrite Z.min_l; [reflexivity|].
      assert (d / 10 ^ Z.to_N (- E) <= d) by (apply N.div_le_upper_bound; [apply N.pow_nonzero; lia|];
        assert (0 < 10 ^ Z.to_N (- E)) by (apply N.neq_0_lt_0, N.pow_nonzero; lia); nia).
      lia.
    + rewrite X. now rewrite float_to_u64_correct, Rr.
Qed.

(** ** C19 *)
Lemma C19_lemma x : valid64 x -> operands_from_f64 (SFopp x) = operands_from_f64 x.
Proof.
  intros V. destruct x as [s|s| |s m e].
  - destruct s; reflexivity.
  - destruct s; reflexivity.
  - reflexivity.
  - cbn [SFopp]. unfold operands_from_f64, f64_to_string, float_to_string.
    destruct (shortest_result 53 1024 _ _ ltac:(lia) ltac:(lia) ltac:(lia) m e V)
      as (d & E & H & A1 & A2 & A3 & _ & A4 & A5 & A6 & _).
    rewrite H. rewrite !from_printed by (auto using minus_opt_sign). reflexivity.
Qed.
Lemma C19_f32 x : valid32 x -> operands_from_f32 (SFopp x) = operands_from_f32 x.
Proof.
  intros V. destruct x as [s|s| |s m e].
  - destruct s; reflexivity.
  - destruct s; reflexivity.
  - reflexivity.
  - cbn [SFopp]. unfold operands_from_f32, f32_to_string, float_to_string.
    destruct (shortest_result 24 128 _ _ ltac:(lia) ltac:(lia) ltac:(lia) m e V)
      as (d & E & H & A1 & A2 & A3 & _ & A4 & A5 & A6 & _).
    rewrite H. rewrite !from_printed by (auto using minus_opt_sign). reflexivity.
Qed.

(** ** C20 *)
Lemma C20_lemma :
  (forall s, operands_from_f64 (S754_infinity s) = Ok (mkOps (S754_infinity false) (2 ^ 64 - 1) 0 0 0 0) /\
             operands_from_f32 (S754_infinity s) = Ok (mkOps (S754_infinity false) (2 ^ 64 - 1) 0 0 0 0)) /\
  operands_from_f64 S754_nan = Ok (mkOps S754_nan 0 0 0 0 0) /\
  operands_from_f32 S754_nan = Ok (mkOps S754_nan 0 0 0 0 0).
Proof. split; [intros [|]; split; reflexivity|split; reflexivity]. Qed.
