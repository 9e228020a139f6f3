(** * Lemmas behind C90: binary32 numbers of any size *)
From Coq Require Import Lia Lra Reals Floats.SpecFloat.
From Flocq Require Import Core IEEE754.BinarySingleNaN.
From Verif Require Import Base F64 Operands Ast LangId GenRs GenPr RustExpr PluralRules Tables Json Cldr Spec SpecR F64Facts ApiProps
  DigitFacts OperandsFacts OperandsProps FloatProps Shortest GenFacts GenMeaning Represents Conformance ConformanceProps FloatConf
  BehaviourSpec LengthSpec SampleProps SpellingProps LengthProps LengthFloat FloatAny.
Open Scope list_scope.
Open Scope N_scope.

Lemma f32_printed2 s m e : SpecFloat.bounded 24 128 m e = true ->
  exists d E, f32_to_string (S754_finite s m e) = (if s then bs "-" else []) ++ digits_to_dec_str (dec_of_N d) E /\
  dec32 d E = S754_finite false m e /\ 0 < d < 10 ^ 10 /\ d mod 10 <> 0 /\
  (forall d' E', dec32 d' E' = S754_finite false m e -> (E' <= E)%Z) /\
  shortest_decimal32 d E (S754_finite false m e).
Proof.
  intros B. unfold f32_to_string, float_to_string.
  destruct (shortest_result 24 128 _ _ ltac:(lia) ltac:(lia) ltac:(lia) m e B)
    as (d & E & H & A1 & A2 & A3 & _ & A4 & A5 & A6 & A7).
  destruct (short32 m e B) as (d' & E' & S1 & S2 & S3).
  rewrite H. exists d, E. split; [reflexivity|]. split; [auto|]. split; [|split; [auto|split; [auto|]]].
  - split; [auto|]. destruct (N.le_gt_cases (10 ^ 10) d) as [L|L]; [|exact L]. 
    specialize (A6 10 d' E' L S1). lia.
  - split; [now apply nearest32_iff|]. split; [intros d'' E'' k H' L; apply nearest32_iff in H'; eauto|].
    intros d'' E'' H' L. apply nearest32_iff in H'; auto. now apply A7.
Qed.

Lemma bounded32 m e : SpecFloat.bounded 24 128 m e = true -> (Z.pos m < 2 ^ 24)%Z /\ ((-149 < e)%Z -> (2 ^ 23 <= Z.pos m)%Z).
Proof.
  intro V. apply andb_prop in V as [V _]. apply canonical_canonical_mantissa with (sx := false) in V.
  unfold canonical in V. cbn [Fexp cond_Zopp] in V. unfold SpecFloat.fexp, cexp in V. change (emin 24 128) with (-149)%Z in V.
  assert (R : Rabs (F2R (Float radix2 (Z.pos m) e)) = (IZR (Z.pos m) * bpow radix2 e)%R).
  { unfold F2R. cbn [Fnum Fexp]. rewrite Rabs_pos_eq; [reflexivity|]. apply Rmult_le_pos; [apply IZR_le; lia|apply bpow_ge_0]. }
  split.
  - destruct (Z.lt_ge_cases (Z.pos m) (2 ^ 24)) as [K|K]; [exact K|exfalso].
    assert (M : (25 + e <= mag radix2 (F2R (Float radix2 (Z.pos m) e)))%Z).
    { apply mag_ge_bpow. rewrite R. replace (25 + e - 1)%Z with (24 + e)%Z by lia. rewrite bpow_plus.
      apply Rmult_le_compat_r; [apply bpow_ge_0|]. rewrite <- IZR_Zpower by lia. now apply IZR_le. }
    lia.
  - intro L. destruct (Z.lt_ge_cases (Z.pos m) (2 ^ 23)) as [K|K]; [exfalso|exact K].
    assert (M : (mag radix2 (F2R (Float radix2 (Z.pos m) e)) <= 23 + e)%Z).
    { apply mag_le_bpow. 
      - apply Rgt_not_eq. apply F2R_gt_0. reflexivity.
      - rewrite R, bpow_plus. apply Rmult_lt_compat_r; [apply bpow_gt_0|]. rewrite <- IZR_Zpower by lia. now apply IZR_lt. }
    lia.
Qed.

(** the largest decimal exponent is large enough *)
Lemma step_ok e E' : (30 <= e)%Z -> (E' = Z.min (e - 29) 11)%Z -> (bpow radix10 E' <= bpow radix2 (e - 2))%R.
Proof.
  intros L ->. rewrite <- (IZR_Zpower radix10), <- (IZR_Zpower radix2) by lia. apply IZR_le. cbn [radix_val radix2 radix10].
  destruct (Z.le_gt_cases e 40) as [K|K].
  - assert (C : (e = 30 \/ e = 31 \/ e = 32 \/ e = 33 \/ e = 34 \/ e = 35 \/ e = 36 \/ e = 37 \/ e = 38 \/ e = 39 \/ e = 40)%Z) by lia.
    repeat destruct C as [->|C]; try (vm_compute; discriminate). rewrite C. vm_compute. discriminate.
  - replace (Z.min (e - 29) 11) with 11%Z by lia. change (radix10 ^ 11)%Z with (10 ^ 11)%Z. apply Z.le_trans with (2 ^ 38)%Z; [lia|].
    apply Z.pow_le_mono_r; lia.
Qed.
Lemma exponent_max m e E : SpecFloat.bounded 24 128 m e = true -> (30 <= e)%Z ->
  (forall d' E', dec32 d' E' = S754_finite false m e -> (E' <= E)%Z) -> (Z.min (e - 29) 11 <= E)%Z.
Proof.
  intros B L Mx. set (E' := Z.min (e - 29) 11). apply (Mx (cand_lo m e E')).
  apply (decf_iff 24 128 _ _ m e B). apply (round_close 24 128 _ m e B).
  destruct (cand_bounds 24 128 ltac:(lia) ltac:(lia) ltac:(lia) m e B E') as [B1 B2]. split; [|exact B1].
  unfold dec_real in *. rewrite N2Z.inj_add, plus_IZR in B2. change (IZR (Z.of_N 1)) with 1%R in B2.
  pose proof (step_ok e E' L eq_refl). lra.
Qed.
Lemma f32_whole_exact m e d E : SpecFloat.bounded 24 128 m e = true -> dec32 d E = S754_finite false m e ->
  (forall d' E', dec32 d' E' = S754_finite false m e -> (E' <= E)%Z) -> (0 <= E)%Z ->
  float_to_u64 (f64_of_N (d * 10 ^ Z.to_N E)) = N.min (d * 10 ^ Z.to_N E) u64_max.
Proof.
  intros B X Mx HE. set (D := d * 10 ^ Z.to_N E).
  assert (R : rnd32 (dec_real d E) = F2R (Float radix2 (Z.pos m) e)) by (apply (decf_iff 24 128 _ _ m e B); exact X).
  rewrite dec_real_whole in R by exact HE. fold D in R.
  apply N2Z.inj. rewrite f64_of_N_trunc, N2Z.inj_min. change (FLT_exp (-1074) 53) with fexp64. change (Z.of_N u64_max) with (2 ^ 64 - 1)%Z.
  destruct (N.le_gt_cases D (2 ^ 53)) as [S|G]; [rewrite rnd64_int, Zfloor_IZR by lia; reflexivity|].
  destruct (N.le_gt_cases (2 ^ 64) D) as [H|H].
  - assert (K : (2 ^ 64 <= Zfloor (rnd64 (IZR (Z.of_N D))))%Z).
    { apply Zfloor_lub. change (2 ^ 64)%Z with (radix2 ^ 64)%Z. rewrite IZR_Zpower by lia.
      apply round_ge_generic; auto with typeclass_instances; [apply generic_format_bpow; vm_compute; discriminate|].
      rewrite <- IZR_Zpower by lia. apply IZR_le. change (radix2 ^ 64)%Z with (2 ^ 64)%Z. lia. }
    lia.
  - assert (Fm : rnd64 (IZR (Z.of_N D)) = IZR (Z.of_N D)); [|rewrite Fm, Zfloor_IZR; reflexivity].
    pose proof (bounded32 m e B) as [M1 M2].
    assert (XL : (bpow radix2 53 <= F2R (Float radix2 (Z.pos m) e))%R).
    { rewrite <- R. apply round_ge_generic; auto with typeclass_instances; [apply generic_format_bpow; vm_compute; discriminate|].
      rewrite <- IZR_Zpower by lia. apply IZR_le. change (radix2 ^ 53)%Z with (2 ^ 53)%Z. lia. }
    assert (XU : (F2R (Float radix2 (Z.pos m) e) < bpow radix2 (e + 24))%R) by apply (x_lt_prec 24 128 m e B).
    assert (L30 : (30 <= e)%Z) by (assert (53 < e + 24)%Z by (apply (lt_bpow radix2); lra); lia).
    pose proof (exponent_max m e E B L30 Mx) as EM.
    assert (DU : (IZR (Z.of_N D) < bpow radix2 (e + 24))%R).
    { apply Rnot_le_lt. intro K. apply (Rlt_not_le _ _ XU). rewrite <- R.
      apply round_ge_generic; auto with typeclass_instances. apply generic_format_bpow. 
      unfold SpecFloat.fexp, emin. lia. }
    rewrite <- IZR_Zpower in DU by lia. apply lt_IZR in DU. change (radix2 ^ (e + 24))%Z with (2 ^ (e + 24))%Z in DU.
    assert (DE : (Z.of_N D = Z.of_N d * 5 ^ E * 2 ^ E)%Z).
    { unfold D. rewrite N2Z.inj_mul, N2Z.inj_pow, Z2N.id by lia. change (Z.of_N 10) with (5 * 2)%Z. rewrite Z.pow_mul_l. ring. }
    set (q := (Z.of_N d * 5 ^ E)%Z) in *.
    assert (Q0 : (0 <= q)%Z) by (unfold q; pose proof (Z.pow_nonneg 5 E); lia).
    assert (P2 : (0 < 2 ^ E)%Z) by (apply Z.pow_pos_nonneg; lia).
    assert (QB : (q < 2 ^ 53)%Z).
    { destruct (Z.le_gt_cases e 40) as [K|K].
      - rewrite DE in DU. assert (W : (q * 2 ^ E < 2 ^ 53 * 2 ^ E)%Z).
        { rewrite <- Z.pow_add_r by lia. apply Z.lt_le_trans with (1 := DU). apply Z.pow_le_mono_r; lia. }
        nia.
      - assert (W : (q * 2 ^ E < 2 ^ 53 * 2 ^ E)%Z).
        { rewrite <- DE, <- Z.pow_add_r by lia. apply Z.lt_le_trans with (2 ^ 64)%Z; [lia|]. apply Z.pow_le_mono_r; lia. }
        nia. }
    apply round_generic; auto with typeclass_instances. rewrite DE.
    replace (IZR (q * 2 ^ E)) with (F2R (Float radix2 q E)).
    + apply generic_format_F2R. intro NZ. unfold cexp. rewrite mag_F2R by exact NZ.
      assert (mag radix2 (IZR q) <= 53)%Z.
      { apply mag_le_Zpower; [exact NZ|]. rewrite Z.abs_eq by exact Q0. exact QB. }
      unfold SpecFloat.fexp, emin. lia.
    + unfold F2R. cbn [Fnum Fexp]. rewrite mult_IZR. f_equal. change (2 ^ E)%Z with (radix2 ^ E)%Z. now rewrite IZR_Zpower by lia.
Qed.

(** ** The operands *)
Lemma C90_lemma x : valid32 x -> is_finite_SF x = true -> SFabs x <> S754_zero false ->
  exists d E n, shortest_decimal32 d E (SFabs x) /\ d mod 10 <> 0 /\ nearest64 (dec_real d E) n /\
  let v := Z.to_N (- E) in
  operands_from_f32 x = Ok (mkOps n (N.min (d * 10 ^ Z.to_N E / 10 ^ v) (2 ^ 64 - 1)) v v (d mod 10 ^ v) (d mod 10 ^ v)).
Proof.
  intros V F Z. destruct x as [s|s| |s m e]; try discriminate F; [now destruct Z|]. cbn [SFabs] in *.
  destruct (f32_printed2 s m e V) as (d & E & Q & X & P & M & Mx & Sh).
  exists d, E, (dec64 d E). split; [exact Sh|]. split; [exact M|]. split; [now apply nearest64_dec|]. cbv zeta.
  unfold operands_from_f32. rewrite Q, from_printed by (auto using minus_opt_sign; lia). cbv zeta. f_equal.
  change (2 ^ 64 - 1) with u64_max.
  destruct (Z.ltb_spec E 0) as [L|L].
  - f_equal. replace (Z.to_N E) with 0 by lia. rewrite N.pow_0_r, N.mul_1_r. symmetry. apply N.min_l.
    apply N.le_trans with d; [apply N.div_le_upper_bound; [apply N.pow_nonzero; lia|]|unfold u64_max; lia].
    pose proof (N.pow_nonzero 10 (Z.to_N (- E))). nia.
  - replace (Z.to_N (- E)) with 0 by lia. rewrite N.pow_0_r, N.div_1_r, N.mod_1_r. f_equal.
    replace (dec64 d E) with (f64_of_N (d * 10 ^ Z.to_N E)); [now apply (f32_whole_exact m e)|].
    unfold f64_of_N. apply (dec_to_float_value 53 1024 _ _). now rewrite dec_real_int, dec_real_whole.
Qed.

(** ** Saturated operands *)
Fixpoint n_small (e : bexpr) : bool :=
  match e with
  | BCmpNL (NField ON) (CEq | CNe) (LFloat k) => k <? 1000
  | BCmpNL (NField ON) _ _ | BCmpLN _ _ (NField ON) => false
  | BCmpNL _ _ _ | BCmpLN _ _ _ | BContains _ _ _ => true
  | BNot b => n_small b
  | BAnd a b | BOr a b => n_small a && n_small b
  end.
Definition full : operands := mkOps (f64_of_N 1000) u64_max 0 0 0 0.
Definition saturated (po : operands) : Prop :=
  op_i po = u64_max /\ (forall k, k < 1000 -> SFeqb (op_n po) (f64_of_N k) = false) /\
  op_v po = 0 /\ op_w po = 0 /\ op_f po = 0 /\ op_t po = 0.
Lemma saturated_int x po : saturated po -> eval_int x po = eval_int x full.
Proof. intros (A & _ & V & W & F & T). destruct x as [[]|[] m]; cbn; now rewrite ?A, ?V, ?W, ?F, ?T. Qed.
Lemma n_small_eq e po : n_small e = true -> saturated po -> eval e po = eval e full.
Proof.
  intros H S. pose proof S as (_ & A & _). destruct thousand_large as (_ & T & _).
  induction e as [x op l|l op x|lo hi x|e IH|e1 IH1 e2 IH2|e1 IH1 e2 IH2]; cbn [n_small] in H.
  - destruct (is_float x) eqn:F; [|cbn [eval]; now rewrite F, (saturated_int x po S)].
    destruct x as [[]|]; try discriminate F. 
    assert (K : exists k, l = LFloat k /\ k < 1000 /\ (op = CEq \/ op = CNe)).
    { destruct op, l as [k|k]; try discriminate; apply N.ltb_lt in H; eauto. }
    destruct K as (k & -> & K & Q). cbn [eval is_float lit_float rbind]. change (op_n full) with (op_n thousand).
    destruct Q as [->| ->]; cbn [cmp_float]; now rewrite (A k K), (T k K).
  - destruct x as [[]|[] m]; try discriminate H; cbn [eval is_float]; now rewrite (saturated_int _ po S).
  - cbn [eval]. now rewrite (saturated_int x po S).
  - cbn [eval]. now rewrite IH.
  - apply andb_prop in H as [H1 H2]. cbn [eval]. now rewrite IH1, IH2.
  - apply andb_prop in H as [H1 H2]. cbn [eval]. now rewrite IH1, IH2.
Qed.
Lemma body_full f po : forallb (fun '(e, _) => n_small e) (b_arms f) = true -> saturated po -> eval_body f po = eval_body f full.
Proof.
  unfold eval_body. intros H A. induction (b_arms f) as [|[e c] r IH]; [reflexivity|].
  cbn [forallb] in H. apply andb_prop in H as [H1 H2]. cbn [eval_arms]. now rewrite (n_small_eq e po H1 A), IH.
Qed.

(** multiples of 10^10 *)
Definition tens : N := 10 ^ 10.
Definition rel_tens (r : relation) : bool :=
  negb (is_within (rel_op r)) &&
  match ex_operand (rel_expr r), ex_modulus (rel_expr r) with
  | ON, None | OI, None => forallb (value_below 1000) (rel_list r)
  | ON, Some m | OI, Some m => negb (m =? 0) && (tens mod m =? 0)
  | _, _ => true
  end.
Lemma expr_tens o m D : 1 <= D -> m <> 0 -> tens mod m = 0 -> o = ON \/ o = OI ->
  uts_expr (mkExpr o (Some m)) (whole (D * tens)) = uts_expr (mkExpr o (Some m)) (whole tens).
Proof.
  intros L Z M O. assert (K : uts_expr (mkExpr OI (Some m)) (whole (D * tens)) = uts_expr (mkExpr OI (Some m)) (whole tens)).
  { unfold uts_expr, uts_operand, uts_i, whole. cbn [ex_operand ex_modulus d_int]. rewrite !N.mul_1_r. f_equal.
    rewrite M. apply N.mod_divide; [exact Z|]. apply N.divide_mul_r. now apply N.mod_divide. }
  destruct O as [->| ->]; [rewrite !whole_n|]; exact K.
Qed.
Lemma rel_whole_tens r D : 1 <= D -> rel_tens r = true -> uts_relation r (whole (D * tens)) = uts_relation r (whole tens).
Proof.
  intros L R. unfold rel_tens in R. apply andb_prop in R as [W R]. apply Bool.negb_true_iff in W.
  assert (G : 1000 <= D * tens /\ 1000 <= tens) by (unfold tens; nia).
  assert (I : forall it, In it (rel_list r) -> item_in (uts_expr (rel_expr r) (whole (D * tens))) it = item_in (uts_expr (rel_expr r) (whole tens)) it).
  { intros it J. destruct (rel_expr r) as [o m]. cbn [ex_operand ex_modulus] in R.
    assert (K : match m with None => value_below 1000 it = true | Some _ => False end ->
      item_in (uts_expr (mkExpr OI m) (whole (D * tens))) it = item_in (uts_expr (mkExpr OI m) (whole tens)) it).
    { destruct m as [m|]; [easy|]. intro V. unfold uts_expr, uts_operand, uts_i, whole. cbn [ex_operand ex_modulus d_int].
      destruct it as [rg|k]; cbn [value_below] in V; cbn [item_in].
      + apply andb_prop in V as [_ V]. apply N.ltb_lt in V. rewrite !N.mod_1_r, !N.mul_1_r. cbn [N.eqb andb].
        apply near_range; [now right|exact V].
      + apply N.ltb_lt in V. rewrite !N.mul_1_r. apply near_eqb; [now right|exact V]. }
    destruct o; try (now destruct m; reflexivity); destruct m as [m|].
    - apply andb_prop in R as [R1 R2]. apply Bool.negb_true_iff, N.eqb_neq in R1. apply N.eqb_eq in R2. now rewrite expr_tens by auto.
    - rewrite forallb_forall in R. specialize (R _ J). rewrite !whole_n. now apply K.
    - apply andb_prop in R as [R1 R2]. apply Bool.negb_true_iff, N.eqb_neq in R1. apply N.eqb_eq in R2. now rewrite expr_tens by auto.
    - rewrite forallb_forall in R. specialize (R _ J). now apply K. }
  assert (E : existsb (item_in (uts_expr (rel_expr r) (whole (D * tens)))) (rel_list r) = existsb (item_in (uts_expr (rel_expr r) (whole tens))) (rel_list r)).
  { clear R. revert I. induction (rel_list r) as [|it l IH]; intro I; [reflexivity|]. cbn [existsb].
    rewrite (I it (or_introl eq_refl)), IH; [reflexivity|]. intros it' J. apply I. now right. }
  unfold uts_relation. rewrite E. destruct (rel_op r); try reflexivity; discriminate.
Qed.
Definition rules_tens (rs : list (category * condition)) : bool :=
  forallb (fun '(c, cond) => cat_eqb c OTHER || forallb (forallb rel_tens) cond) rs.
Lemma cond_tens cond D : 1 <= D -> forallb (forallb rel_tens) cond = true ->
  uts_condition cond (whole (D * tens)) = uts_condition cond (whole tens).
Proof.
  intros G H. unfold uts_condition, uts_and. induction cond as [|a r IH]; [reflexivity|].
  cbn [forallb existsb] in *. apply andb_prop in H as [H1 H2]. rewrite IH by exact H2. f_equal. clear -G H1.
  induction a as [|x l IH]; [reflexivity|]. cbn [forallb] in *. apply andb_prop in H1 as [A B].
  now rewrite (rel_whole_tens x D G A), IH.
Qed.
Lemma select_tens rs D c : 1 <= D -> rules_tens rs = true ->
  cldr_select rs (whole tens) c -> cldr_select rs (whole (D * tens)) c.
Proof.
  intros G R H. unfold rules_tens in R. rewrite forallb_forall in R.
  assert (Q : forall c' cond, In (c', cond) rs -> c' <> OTHER -> uts_condition cond (whole (D * tens)) = uts_condition cond (whole tens)).
  { intros c' cond I NO. specialize (R _ I). cbn in R. apply orb_prop in R as [R|R].
    - apply cat_eqb_eq in R. congruence.
    - now apply cond_tens. }
  destruct H as [[NO (cond & I & U)]|[-> U]].
  - left. split; [exact NO|]. exists cond. split; [exact I|]. now rewrite (Q c cond I NO).
  - right. split; [reflexivity|]. intros c' cond I NO. rewrite (Q c' cond I NO). eauto.
Qed.

(** ** The shipped tables *)
Definition f32_ok (l : list (langid * list (category * condition))) (t : pr_type) (e : langid * body) : bool :=
  if listed (fst e) (float32_wrong t) then true else
  negb (mem (fst e) (integer_wrong t)) && negb (mem (fst e) (fraction_wrong t)) &&
  match rules_in l (fst e) with
  | Some rs => rules_tens rs && forallb (fun '(e, _) => n_small e) (b_arms (snd e)) &&
      match eval_body (snd e) full with Ok c => cldr_selectb rs (whole tens) c | _ => false end
  | None => false
  end.
Lemma all_f32 t : forallb (f32_ok (cldr t) t) (prs t) = true.
Proof. destruct t; vm_compute; reflexivity. Qed.
Lemma entry_f32 how id t pr : create how id t = Ok pr -> listed id (float32_wrong t) = false ->
  ~ In id (integer_wrong t) /\ ~ In id (fraction_wrong t) /\
  exists rs c, In (id, rs) (cldr t) /\ rules_tens rs = true /\ forallb (fun '(e, _) => n_small e) (b_arms (pr_function pr)) = true /\
    eval_body (pr_function pr) full = Ok c /\ cldr_select rs (whole tens) c.
Proof.
  intros C L. apply C22_lemma in C as [I _]. pose proof (all_f32 t) as H. rewrite forallb_forall in H. specialize (H _ I).
  unfold f32_ok in H. cbn [fst snd] in H. rewrite L in H. change (rules_in (cldr t) id) with (find_rules t id) in H.
  apply andb_prop in H as [H H3]. apply andb_prop in H as [H1 H2]. apply Bool.negb_true_iff in H1, H2.
  split; [intro K; apply mem_in in K; congruence|]. split; [intro K; apply mem_in in K; congruence|].
  destruct (find_rules t id) as [rs|] eqn:F; [|discriminate].
  apply andb_prop in H3 as [H3 H6]. apply andb_prop in H3 as [H4 H5].
  destruct (eval_body (pr_function pr) full) as [c| |] eqn:E; try discriminate.
  exists rs, c. split; [now apply find_rules_in|]. split; [exact H4|]. split; [exact H5|]. split; [reflexivity|]. now apply cldr_selectb_iff.
Qed.
Lemma C89_f32_lemma how id t pr w x : create how id t = Ok pr -> listed id (float32_wrong t) = false ->
  valid32 x -> is_finite_SF x = true ->
  exists d E dd rules c, shortest_decimal32 d E (SFabs x) /\ (d = 0 \/ d mod 10 <> 0) /\ decimal_of d E dd /\
    In (id, rules) (cldr t) /\ select w pr (InF32 x) = Ok c /\ cldr_select rules dd c.
Proof.
  intros C L V F. destruct (entry_f32 how id t pr C L) as (N1 & N2 & rs & c0 & I0 & R0 & B0 & E0 & S0).
  destruct x as [s|s| |s m e]; try discriminate F.
  { destruct (follows_f32 how id t pr w (S754_zero s) C V F) as (d & E & dd & A1 & A2 & A3 & A4); auto.
    { unfold below_2_53. cbn. apply IZR_lt. reflexivity. }
    destruct A4 as (rules & c & A4); [intro K; now apply N2 in K|]. exists d, E, dd, rules, c. tauto. }
  cbn [SFabs] in *.
  destruct (f32_printed2 s m e V) as (d & E & Q & X & P & M & Mx & Sh).
  destruct (printed_numeral _ d E (minus_opt_sign s) (proj1 P) M) as (dd & Nu & De & Fr & In0).
  assert (H : exists rules c, In (id, rules) (cldr t) /\ select w pr (InF32 (S754_finite s m e)) = Ok c /\ cldr_select rules dd c).
  2: { destruct H as (rules & c & H). exists d, E, dd, rules, c. split; [exact Sh|]. split; [now right|]. split; [exact De|exact H]. }
  assert (Pr : proper dd) by (eapply numeral_proper; eauto).
  assert (Fol : forall po, operands_from_f32 (S754_finite s m e) = Ok po -> represents po dd ->
    exists rules c, In (id, rules) (cldr t) /\ select w pr (InF32 (S754_finite s m e)) = Ok c /\ cldr_select rules dd c).
  { intros po Q1 Q2. apply (follows how id t pr w (InF32 _) po dd); auto. intro K. now apply N2 in K. }
  destruct (Z.lt_ge_cases E 0) as [HE|HE].
  - (* a fraction *)
    assert (Sm : small dd).
    { destruct De as (D1 & D2 & _). split.
      - rewrite D1. replace (Z.to_N E) with 0 by lia. lia.
      - rewrite D2. destruct (f32_printed' s m e V) as (d' & E' & Q' & X' & P' & M' & LE' & _).
        assert (E' <= E)%Z by (now apply (Mx d')). lia. }
    destruct (numeral_represents _ _ Nu Sm) as (po & A & Rp). apply (Fol po); [|exact Rp].
    unfold operands_from_f32. now rewrite Q.
  - pose proof (decimal_whole d E dd De HE) as ->. set (D := d * 10 ^ Z.to_N E) in *.
    assert (Po : operands_from_f32 (S754_finite s m e) = Ok (mkOps (f64_of_N D) (N.min D u64_max) 0 0 0 0)).
    { unfold operands_from_f32. rewrite Q, from_printed by (auto using minus_opt_sign; lia). cbv zeta.
      destruct (Z.ltb_spec E 0) as [K|_]; [lia|].
      assert (Y : dec64 d E = f64_of_N D).
      { unfold f64_of_N. symmetry. apply (dec_to_float_value 53 1024 _ _). unfold D. now rewrite dec_real_int, dec_real_whole. }
      rewrite Y. unfold D. now rewrite (f32_whole_exact m e) by auto. }
    destruct (N.lt_ge_cases D (2 ^ 64)) as [Lo|Hi].
    + apply (Fol _ Po). apply represents_of; try reflexivity.
      * cbn [op_i]. unfold uts_i, whole. cbn [d_int]. apply N.min_l. unfold u64_max. lia.
      * replace (uts_num (whole D)) with D by (unfold uts_num, uts_den, uts_f, uts_v, whole; cbn; lia).
        change (uts_den (whole D)) with 1. now apply compares_int.
    + assert (T10 : (10 <= E)%Z).
      { destruct (Z.le_gt_cases 10 E) as [K|K]; [exact K|exfalso].
        assert (D < 10 ^ 10 * 10 ^ 9).
        { unfold D. apply N.lt_le_trans with (10 ^ 10 * 10 ^ Z.to_N E).
          - apply N.mul_lt_mono_pos_r; [apply N.neq_0_lt_0, N.pow_nonzero; lia|lia].
          - apply N.mul_le_mono_l, N.pow_le_mono_r; lia. }
        lia. }
      assert (DT : exists j, 1 <= j /\ D = j * tens).
      { exists (d * 10 ^ (Z.to_N E - 10)). pose proof (N.pow_nonzero 10 (Z.to_N E - 10) ltac:(lia)). split; [nia|].
        unfold D, tens. rewrite <- N.mul_assoc, <- N.pow_add_r. do 2 f_equal. lia. }
      destruct DT as (j & J & DJ). exists rs, c0. split; [exact I0|]. split.
      * unfold select. cbn [to_operands]. rewrite Po, <- E0. apply body_full; [exact B0|].
        pose proof (big_operands D ltac:(lia)) as (_ & Nk & _). split; [cbn; unfold u64_max in *; lia|]. split; [exact Nk|]. repeat split.
      * rewrite DJ. now apply select_tens.
Qed.

(** ** The other locales *)
Definition float32_witnesses : list (spec_float * (bytes * bytes)) :=
  [(S754_finite false 8388608 (-24), (bs "0", bs "5")); (S754_finite false 12582912 (-23), (bs "1", bs "5"));
   (S754_finite false 10485760 (-22), (bs "2", bs "5")); (S754_finite false 14680064 (-22), (bs "3", bs "5"));
   (S754_finite false 9437184 (-21), (bs "4", bs "5")); (S754_finite false 13631488 (-21), (bs "6", bs "5"));
   (S754_finite false 13500416 (-17), (bs "103", [])); (S754_finite false 8388608 42, (bs "36893490000000000000", []))].
Lemma float32_texts : forallb (fun '(x, w) => SpecFloat.valid_binary 24 128 x && bytes_eqb (f32_to_string x) (witness_text w) &&
  negb (match fst w with [] => true | _ => false end) && forallb is_digit (fst w) && forallb is_digit (snd w)) float32_witnesses = true.
Proof. vm_compute. reflexivity. Qed.
Definition float32_wrong_ok (l : list (langid * list (category * condition))) (t : pr_type) (e : langid * body) : bool :=
  if listed (fst e) (float32_wrong t) then
    match rules_in l (fst e) with
    | Some rs => match List.find (fun x => wrong_at (snd e) rs (snd x)) float32_witnesses with Some _ => true | None => false end
    | None => false
    end
  else true.
Lemma all_float32_wrong t : forallb (float32_wrong_ok (cldr t) t) (prs t) = true.
Proof. destruct t; vm_compute; reflexivity. Qed.
Lemma C89_wrong32_lemma how id t pr w : create how id t = Ok pr -> listed id (float32_wrong t) = true ->
  exists x d E dd rules c, valid32 x /\ is_finite_SF x = true /\
    shortest_decimal32 d E (SFabs x) /\ d mod 10 <> 0 /\ decimal_of d E dd /\
    In (id, rules) (cldr t) /\ select w pr (InF32 x) = Ok c /\ ~ cldr_select rules dd c.
Proof.
  intros C L. apply C22_lemma in C as [I _]. pose proof (all_float32_wrong t) as H. rewrite forallb_forall in H. specialize (H _ I).
  unfold float32_wrong_ok in H. cbn [fst snd] in H. rewrite L in H. change (rules_in (cldr t) id) with (find_rules t id) in H.
  destruct (find_rules t id) as [rs|] eqn:F; [|discriminate].
  destruct (List.find _ float32_witnesses) as [[x u]|] eqn:FD; [|discriminate]. apply List.find_some in FD as [J W]. cbn [snd] in W.
  pose proof float32_texts as T. rewrite forallb_forall in T. specialize (T _ J). cbv beta iota in T.
  apply andb_prop in T as [T T5]. apply andb_prop in T as [T T4]. apply andb_prop in T as [T T3]. apply andb_prop in T as [T1 T2].
  apply bytes_eqb_eq in T2. apply digits_forallb in T4, T5.
  assert (Nm : numeral (f32_to_string x) (witness_decimal u)).
  { rewrite T2. exists [], (fst u), (snd u). split; [now left|]. split; [exact T4|].
    split; [intro K; rewrite K in T3; discriminate|]. split; [exact T5|]. split; reflexivity. }
  assert (Fi : is_finite_SF x = true).
  { clear -J. repeat (destruct J as [J|J]; [injection J as <- _; easy|]). destruct J. }
  destruct (f32_numeral x T1 Fi) as (d & E & dd & A1 & A2 & A3 & A4).
  pose proof (numeral_det _ _ _ A4 Nm) as ->.
  unfold wrong_at in W. destruct (operands_from_str (witness_text u)) as [po| |] eqn:Q; try discriminate.
  destruct (eval_body (pr_function pr) po) as [c| |] eqn:E0; try discriminate.
  exists x, d, E, (witness_decimal u), rs, c. split; [exact T1|]. split; [exact Fi|]. split; [exact A1|].
  split.
  { destruct A2 as [->|A2]; [exfalso|exact A2]. destruct A3 as (A3 & _). rewrite N.mul_0_l in A3.
    clear -J A3. repeat (destruct J as [J|J]; [injection J as _ <-; vm_compute in A3; discriminate|]). destruct J. }
  split; [exact A3|]. split; [now apply find_rules_in|].
  split; [unfold select; cbn [to_operands]; unfold operands_from_f32; now rewrite T2, Q|].
  intro K. apply cldr_selectb_iff in K. rewrite K in W. discriminate.
Qed.
