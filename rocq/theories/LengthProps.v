(** * Lemmas behind C88 *)
From Coq Require Import Lia Lra Reals Floats.SpecFloat.
From Flocq Require Import Core IEEE754.BinarySingleNaN.
From Verif Require Import Base F64 Operands Ast LangId GenRs GenPr RustExpr PluralRules Tables Json Cldr Spec SpecR F64Facts ApiProps
  DigitFacts OperandsFacts OperandsProps GenFacts GenMeaning Represents Conformance ConformanceProps BehaviourSpec LengthSpec SpellingProps.
Open Scope N_scope.

(** ** Closures without n and without remainders of i *)
Definition near (a b : N) : Prop := a = b \/ (1000 <= a /\ 1000 <= b).
Definition i_alike (a b : operands) : Prop :=
  near (op_i a) (op_i b) /\ op_v a = op_v b /\ op_w a = op_w b /\ op_f a = op_f b /\ op_t a = op_t b.
Definition fraction_field (x : num) : bool :=
  match x with NField (OV | OW | OF | OT) | NMod (OV | OW | OF | OT) _ => true | _ => false end.
Fixpoint robust (e : bexpr) : bool :=
  match e with
  | BCmpNL (NField OI) (CEq | CNe) (LInt k) => k <? 1000
  | BContains lo hi (NField OI) => hi <? 1000
  | BCmpNL x _ (LInt _) => fraction_field x
  | BContains _ _ x => fraction_field x
  | BNot b => robust b
  | BAnd a b | BOr a b => robust a && robust b
  | _ => false
  end.
Lemma fraction_field_eq x a b : fraction_field x = true -> i_alike a b -> eval_int x a = eval_int x b /\ is_float x = false.
Proof.
  intros F (_ & V & W & Ff & T). split; [|destruct x as [[]|[] m]; easy].
  destruct x as [[]|[] m]; try discriminate; cbn; now rewrite ?V, ?W, ?Ff, ?T.
Qed.
Lemma near_eqb a b k : near a b -> k < 1000 -> (a =? k) = (b =? k).
Proof. intros [->|[A B]] K; [reflexivity|]. destruct (N.eqb_spec a k), (N.eqb_spec b k); lia. Qed.
Lemma near_leb a b k : near a b -> k < 1000 -> (a <=? k) = (b <=? k).
Proof. intros [->|[A B]] K; [reflexivity|]. destruct (N.leb_spec a k), (N.leb_spec b k); lia. Qed.
Lemma near_range a b lo hi : near a b -> hi < 1000 -> (lo <=? a) && (a <=? hi) = (lo <=? b) && (b <=? hi).
Proof.
  intros [->|[A B]] K; [reflexivity|].
  replace (a <=? hi) with false by (symmetry; apply N.leb_gt; lia). replace (b <=? hi) with false by (symmetry; apply N.leb_gt; lia).
  now rewrite !Bool.andb_false_r.
Qed.
Lemma robust_eq e a b : robust e = true -> i_alike a b -> eval e a = eval e b.
Proof.
  intros H A. induction e as [x op l|l op x|lo hi x|e IH|e1 IH1 e2 IH2|e1 IH1 e2 IH2]; cbn [robust] in H.
  - destruct (fraction_field x) eqn:F.
    { destruct (fraction_field_eq x a b F A) as [E Fl]. cbn [eval]. now rewrite Fl, E. }
    destruct x as [[]|[] m]; try discriminate F; try (destruct op, l; discriminate).
    assert (K : exists k, l = LInt k /\ k < 1000 /\ (op = CEq \/ op = CNe)).
    { destruct op, l as [k|k]; try discriminate; apply N.ltb_lt in H; eauto. }
    destruct K as (k & -> & K & Q). destruct A as (Nr & _).
    cbn [eval is_float eval_int int_field unwrap].
    destruct (lit_int (LInt k)) as [k'| |] eqn:L; try reflexivity. cbn [rbind].
    assert (k' = k) by (cbn in L; destruct (k <=? u64_max); [now injection L|discriminate]). subst k'.
    destruct Q as [->| ->]; cbn [cmp_int]; now rewrite (near_eqb _ _ k Nr K).
  - discriminate.
  - destruct (fraction_field x) eqn:F.
    { destruct (fraction_field_eq x a b F A) as [E Fl]. cbn [eval]. now rewrite E. }
    destruct x as [[]|[] m]; try discriminate. destruct A as (Nr & _). apply N.ltb_lt in H.
    cbn [eval eval_int int_field unwrap].
    destruct (lit_int (LInt lo)) as [lo'| |] eqn:L; try reflexivity. destruct (lit_int (LInt hi)) as [hi'| |] eqn:L'; try reflexivity.
    cbn [rbind]. f_equal.
    assert (lo' = lo) by (cbn in L; destruct (lo <=? u64_max); [now injection L|discriminate]).
    assert (hi' = hi) by (cbn in L'; destruct (hi <=? u64_max); [now injection L'|discriminate]).
    subst. now apply near_range.
  - cbn [eval]. now rewrite IH.
  - apply andb_prop in H as [H1 H2]. cbn [eval]. now rewrite IH1, IH2.
  - apply andb_prop in H as [H1 H2]. cbn [eval]. now rewrite IH1, IH2.
Qed.
Definition body_robust (f : body) : bool := forallb (fun '(e, _) => robust e) (b_arms f).
Lemma body_robust_eq f a b : body_robust f = true -> i_alike a b -> eval_body f a = eval_body f b.
Proof.
  unfold body_robust, eval_body. intros H A. induction (b_arms f) as [|[e c] r IH]; [reflexivity|].
  cbn [forallb] in H. apply andb_prop in H as [H1 H2]. cbn [eval_arms]. now rewrite (robust_eq e a b H1 A), IH.
Qed.

(** ** CLDR conditions of that kind *)
Definition rel_robust (r : relation) : bool :=
  negb (is_within (rel_op r)) &&
  match ex_operand (rel_expr r), ex_modulus (rel_expr r) with
  | ON, None | OI, None => forallb (value_below 1000) (rel_list r)
  | ON, Some _ | OI, Some _ => false
  | _, _ => true
  end.
Definition clamp (d : decimal) : decimal := mkDecimal (N.min (d_int d) 1000) (d_frac d).
Lemma clamp_near d : near (d_int d) (d_int (clamp d)).
Proof. unfold near, clamp. cbn [d_int]. lia. Qed.
Lemma item_n d k : proper d -> (uts_num d =? k * uts_den d) = (uts_f d =? 0) && (d_int d =? k).
Proof.
  intro P. assert (F : uts_f d < uts_den d) by (apply frac_value_lt, P). unfold uts_num.
  apply eq_true_iff_eq. rewrite Bool.andb_true_iff, !N.eqb_eq. split; [|intros [-> ->]; lia].
  intro E. destruct (N.lt_trichotomy (d_int d) k) as [L|[L|L]]; [exfalso; nia|subst; split; lia|exfalso; nia].
Qed.
Lemma item_n_range d lo hi : proper d ->
  (uts_num d mod uts_den d =? 0) && (lo * uts_den d <=? uts_num d) && (uts_num d <=? hi * uts_den d) =
  (uts_f d =? 0) && ((lo <=? d_int d) && (d_int d <=? hi)).
Proof.
  intro P. rewrite (num_mod d P). destruct (N.eqb_spec (uts_f d) 0) as [Z|Z]; [|reflexivity]. cbn [andb].
  pose proof (den_pos d). unfold uts_num. rewrite Z, N.add_0_r.
  f_equal.
  - destruct (N.leb_spec (lo * uts_den d) (d_int d * uts_den d)), (N.leb_spec lo (d_int d)); auto; nia.
  - destruct (N.leb_spec (d_int d * uts_den d) (hi * uts_den d)), (N.leb_spec (d_int d) hi); auto; nia.
Qed.
Lemma rel_clamp r d : proper d -> rel_robust r = true -> uts_relation r d = uts_relation r (clamp d).
Proof.
  intros P R. unfold rel_robust in R. apply andb_prop in R as [W R]. apply Bool.negb_true_iff in W.
  assert (P' : proper (clamp d)) by exact P.
  assert (I : forall it, In it (rel_list r) -> item_in (uts_expr (rel_expr r) d) it = item_in (uts_expr (rel_expr r) (clamp d)) it).
  { intros it J. destruct (rel_expr r) as [o m]. cbn [ex_operand ex_modulus] in R. unfold uts_expr. cbn [ex_operand ex_modulus].
    pose proof (clamp_near d) as Nr.
    destruct o, m as [m|]; try discriminate; try reflexivity;
      rewrite forallb_forall in R; specialize (R _ J); destruct it as [rg|k]; cbn [value_below] in R; cbn [uts_operand item_in].
    - apply andb_prop in R as [_ R]. apply N.ltb_lt in R. rewrite !item_n_range by assumption.
      change (uts_f (clamp d)) with (uts_f d). f_equal. now apply near_range.
    - apply N.ltb_lt in R. rewrite !item_n by assumption. change (uts_f (clamp d)) with (uts_f d). f_equal. now apply near_eqb.
    - apply andb_prop in R as [_ R]. apply N.ltb_lt in R. rewrite !N.mod_1_r, !N.mul_1_r. cbn [N.eqb andb]. now apply near_range.
    - apply N.ltb_lt in R. rewrite N.mul_1_r. now apply near_eqb. }
  assert (E : existsb (item_in (uts_expr (rel_expr r) d)) (rel_list r) = existsb (item_in (uts_expr (rel_expr r) (clamp d))) (rel_list r)).
  { clear R. revert I. induction (rel_list r) as [|it l IH]; intro I; [reflexivity|]. cbn [existsb].
    rewrite (I it (or_introl eq_refl)), IH; [reflexivity|]. intros it' J. apply I. now right. }
  unfold uts_relation. rewrite E. destruct (rel_op r); try reflexivity; discriminate.
Qed.
Definition rules_robust (rs : list (category * condition)) : bool :=
  forallb (fun '(c, cond) => cat_eqb c OTHER || forallb (forallb rel_robust) cond) rs.
Lemma cond_clamp cond d : proper d -> forallb (forallb rel_robust) cond = true -> uts_condition cond d = uts_condition cond (clamp d).
Proof.
  intros P H. unfold uts_condition, uts_and. induction cond as [|a r IH]; [reflexivity|].
  cbn [forallb existsb] in *. apply andb_prop in H as [H1 H2]. rewrite IH by exact H2. f_equal. clear -P H1.
  induction a as [|x l IH]; [reflexivity|]. cbn [forallb] in *. apply andb_prop in H1 as [A B].
  now rewrite (rel_clamp x d P A), IH.
Qed.
Lemma select_clamp rs d c : proper d -> rules_robust rs = true -> cldr_select rs (clamp d) c -> cldr_select rs d c.
Proof.
  intros P R H. unfold rules_robust in R. rewrite forallb_forall in R.
  assert (Q : forall c' cond, In (c', cond) rs -> c' <> OTHER -> uts_condition cond d = uts_condition cond (clamp d)).
  { intros c' cond I NO. specialize (R _ I). cbn in R. apply orb_prop in R as [R|R].
    - apply cat_eqb_eq in R. congruence.
    - now apply cond_clamp. }
  destruct H as [[NO (cond & I & U)]|[-> U]].
  - left. split; [exact NO|]. exists cond. split; [exact I|]. now rewrite (Q c cond I NO).
  - right. split; [reflexivity|]. intros c' cond I NO. rewrite (Q c' cond I NO). now apply (U c').
Qed.

(** ** Operands for the clamped decimal *)
Definition ideal (d : decimal) : operands :=
  mkOps (if uts_f d =? 0 then f64_of_N (d_int (clamp d)) else dec64 (10 * d_int (clamp d) + 5) (-1))
    (d_int (clamp d)) (uts_v d) (uts_w d) (uts_f d) (uts_t d).
Lemma ideal_represents d : proper d -> represents (ideal d) (clamp d).
Proof.
  intro P. apply represents_of; try reflexivity. unfold ideal. cbn [op_n].
  set (i := d_int (clamp d)). assert (B : i <= 1000) by (unfold i, clamp; cbn [d_int]; lia).
  pose proof (den_pos (clamp d)) as D. change (uts_den (clamp d)) with (uts_den d) in *.
  assert (F : uts_f d < uts_den d) by (apply frac_value_lt, P).
  unfold uts_num. change (uts_den (clamp d)) with (uts_den d). change (uts_f (clamp d)) with (uts_f d). fold i.
  destruct (N.eqb_spec (uts_f d) 0) as [Z|Z]; intros k K.
  - destruct (compares_int i ltac:(lia) k K) as (A1 & A2 & A3). rewrite A1, A2, A3, Z, N.add_0_r, N.mul_1_r. clear A1 A2 A3.
    split; [|split].
    + destruct (N.eqb_spec i k), (N.eqb_spec (i * uts_den d) (k * uts_den d)); auto; nia.
    + destruct (N.leb_spec k i), (N.leb_spec (k * uts_den d) (i * uts_den d)); auto; nia.
    + destruct (N.leb_spec i k), (N.leb_spec (i * uts_den d) (k * uts_den d)); auto; nia.
  - destruct (compares_dec (10 * i + 5) 1 ltac:(lia) ltac:(lia) k K) as (A1 & A2 & A3).
    change (- Z.of_N 1)%Z with (-1)%Z in *. change (10 ^ 1) with 10 in *.
    rewrite A1, A2, A3. clear A1 A2 A3.
    split; [|split].
    + destruct (N.eqb_spec (10 * i + 5) (k * 10)), (N.eqb_spec (i * uts_den d + uts_f d) (k * uts_den d)); auto; [lia|].
      exfalso. destruct (N.lt_trichotomy i k) as [L|[L|L]]; nia.
    + destruct (N.leb_spec (k * 10) (10 * i + 5)), (N.leb_spec (k * uts_den d) (i * uts_den d + uts_f d)); auto; exfalso; [assert (k <= i) by lia; nia|assert (i < k) by lia; nia].
    + destruct (N.leb_spec (10 * i + 5) (k * 10)), (N.leb_spec (i * uts_den d + uts_f d) (k * uts_den d)); auto; exfalso; [assert (i < k) by lia; nia|assert (k <= i) by lia; nia].
Qed.

(** ** What the conversion makes of a numeral of any size *)
Lemma trunc_near m : near (float_to_u64 (f64_of_N m)) m.
Proof.
  destruct (N.le_gt_cases m (2 ^ 53)) as [L|G]; [left; now apply f64_of_N_trunc_exact|right; split; [|lia]].
  pose proof (f64_of_N_trunc m) as H. change (FLT_exp (-1074) 53) with fexp64 in H.
  assert (K : (2 ^ 53 <= Zfloor (rnd64 (IZR (Z.of_N m))))%Z).
  { apply Zfloor_lub. rewrite <- (rnd64_int (2 ^ 53)) by lia. apply round_le; auto with typeclass_instances. apply IZR_le. lia. }
  lia.
Qed.
Lemma near_trans a b c : near a b -> near b c -> near a c.
Proof. unfold near. lia. Qed.
Lemma numeral_fields s d po : numeral s d -> operands_from_str s = Ok po ->
  op_n po = dec64 (uts_num d) (- Z.of_N (uts_v d)) /\ near (op_i po) (d_int d) /\
  op_v po = uts_v d /\ op_w po = uts_w d /\ op_f po = uts_f d /\ op_t po = uts_t d.
Proof.
  intros (sg & i & f & S & Di & Ni & Df & -> & ->) E.
  unfold uts_num, uts_den, uts_v, uts_w, uts_f, uts_t. cbn [d_int d_frac] in *.
  change (fun c => c - 48) with dig in *. rewrite map_length, frac_value_dig in *.
  destruct f as [|c f].
  - rewrite app_nil_r in E. rewrite from_str_int in E by auto. injection E as <-. cbn [op_n op_i op_v op_w op_f op_t dval List.length] in *.
    change (10 ^ N.of_nat 0) with 1. rewrite N.mul_1_r, N.add_0_r. split; [reflexivity|]. split; [apply trunc_near|repeat split].
  - change (46 :: c :: f) with ([46] ++ c :: f)%list in E.
    destruct (accepted_frac_bounds sg i (c :: f) po S Di Df Ni ltac:(discriminate) E) as [Bi Bf].
    destruct (trailing_exists (c :: f)) as [g W].
    rewrite (from_str_frac sg i (c :: f) g) in E by (auto; discriminate). injection E as <-.
    cbn [op_n op_i op_v op_w op_f op_t] in *. rewrite (strip_map _ g Df W), frac_value_dig, map_length.
    split; [rewrite dval_app, nat_N_Z; reflexivity|]. split; [now left|repeat split].
Qed.
Lemma fields_alike s d po : numeral s d -> operands_from_str s = Ok po -> i_alike po (ideal d).
Proof.
  intros Nm E. destruct (numeral_fields s d po Nm E) as (_ & I & V & W & F & T).
  unfold i_alike, ideal. cbn [op_i op_v op_w op_f op_t]. repeat split; auto. eapply near_trans; [exact I|apply clamp_near].
Qed.
Open Scope R_scope.
Lemma dec_real_parts d : dec_real (uts_num d) (- Z.of_N (uts_v d)) = IZR (Z.of_N (d_int d)) + IZR (Z.of_N (uts_f d)) / IZR (Z.of_N (uts_den d)).
Proof.
  unfold dec_real. rewrite bpow_opp, <- bpow10_N. change (10 ^ uts_v d)%N with (uts_den d).
  unfold uts_num. rewrite N2Z.inj_add, N2Z.inj_mul, plus_IZR, mult_IZR. field. apply IZR_neq. pose proof (den_pos d). lia.
Qed.
Lemma rnd64_ge2 x : 2 <= x -> 2 <= rnd64 x.
Proof. intro H. rewrite <- (rnd64_int 2) by lia. apply round_le; auto with typeclass_instances. Qed.
Lemma one_exact d : proper d -> let x := dec64 (uts_num d) (- Z.of_N (uts_v d)) in
  (uts_f d = 0%N -> SFeqb x (f64_of_N 1) = (d_int d =? 1)%N) /\ (SFeqb x (f64_of_N 1) = true -> (d_int d <= 1)%N).
Proof.
  intros P x. subst x. pose proof (dec_real_parts d) as Y.
  destruct (dec64_correct (uts_num d) (- Z.of_N (uts_v d))) as [V C].
  set (x := dec64 _ _) in *. set (y := dec_real _ _) in *.
  assert (F0 : 0 <= IZR (Z.of_N (uts_f d)) / IZR (Z.of_N (uts_den d))).
  { pose proof (den_pos d). apply Rmult_le_pos; [apply IZR_le; lia|]. apply Rlt_le, Rinv_0_lt_compat, IZR_lt. lia. }
  assert (YI : uts_f d = 0%N -> y = IZR (Z.of_N (d_int d))).
  { intro Z. rewrite Y, Z. cbn [Z.of_N]. unfold Rdiv. lra. }
  assert (G : (2 <= d_int d)%N -> 2 <= rnd64 y).
  { intro L. apply rnd64_ge2. rewrite Y. assert (2 <= IZR (Z.of_N (d_int d))) by (apply IZR_le; lia). lra. }
  assert (B2 : 2 < bpow radix2 1024) by (change 2 with (bpow radix2 1); apply bpow_lt; reflexivity).
  destruct (Rlt_bool_spec (rnd64 y) (bpow radix2 1024)) as [L|L].
  - destruct C as (C1 & C2 & C3). destruct (f64_of_N_exact 1 ltac:(lia)) as (A & B & _).
    rewrite (SFeqb_correct x (f64_of_N 1)) by auto using valid_f64_of_N. rewrite A, C1. cbn [Z.of_N].
    split.
    + intro Z. apply YI in Z. destruct (N.eqb_spec (d_int d) 1) as [E|E].
      * rewrite Z, E. apply Req_bool_true. apply rnd64_int. reflexivity || lia.
      * apply Req_bool_false. destruct (N.le_gt_cases 2 (d_int d)) as [K|K]; [specialize (G K); lra|].
        assert (E0 : d_int d = 0%N) by lia. rewrite Z, E0. cbn [Z.of_N]. rewrite round_0 by auto with typeclass_instances. lra.
    + intro H. destruct (N.le_gt_cases (d_int d) 1) as [K|K]; [exact K|]. assert (K2 : (2 <= d_int d)%N) by lia. specialize (G K2).
      rewrite Req_bool_false in H by lra. discriminate.
  - rewrite C. split; [|discriminate]. intro Z. apply YI in Z. destruct (N.eqb_spec (d_int d) 1) as [E|E]; [|reflexivity].
    exfalso. rewrite Z, E in L. cbn [Z.of_N] in L. rewrite rnd64_int in L by lia. lra.
Qed.
Open Scope N_scope.

(** ** Danish compares n with 1 and is right all the same *)
Definition danish : body :=
  mkBody [(BOr (BCmpNL (NField ON) CEq (LFloat 1))
            (BAnd (BCmpNL (NField OT) CNe (LInt 0)) (BOr (BCmpNL (NField OI) CEq (LInt 0)) (BCmpNL (NField OI) CEq (LInt 1)))), ONE)] OTHER.
Lemma danish_value po : eval_body danish po =
  Ok (if SFeqb (op_n po) (f64_of_N 1) || (negb (op_t po =? 0) && ((op_i po =? 0) || (op_i po =? 1))) then ONE else OTHER).
Proof.
  unfold eval_body, danish. cbn [b_arms b_else eval_arms eval is_float lit_float lit_int eval_int int_field unwrap rbind cmp_float cmp_int].
  change (0 <=? u64_max) with true. change (1 <=? u64_max) with true. cbn [rbind].
  destruct (SFeqb (op_n po) (f64_of_N 1)); [reflexivity|]. cbn [rbind orb].
  destruct (op_t po =? 0); [reflexivity|]. cbn [rbind negb andb].
  destruct (op_i po =? 0); [reflexivity|]. cbn [rbind orb]. now destruct (op_i po =? 1).
Qed.
Lemma danish_eq s d po : numeral s d -> operands_from_str s = Ok po -> eval_body danish po = eval_body danish (ideal d).
Proof.
  intros Nm E. pose proof (numeral_proper s d Nm) as P.
  destruct (numeral_fields s d po Nm E) as (N & I & _ & _ & _ & T).
  rewrite !danish_value, N, T. unfold ideal at 2 3 4. cbn [op_t op_i]. do 2 f_equal.
  assert (Q : near (op_i po) (d_int (clamp d))) by (eapply near_trans; [exact I|apply clamp_near]).
  rewrite !(near_eqb _ _ _ Q) by lia.
  destruct (one_exact d P) as [A B]. destruct (ideal_represents d P) as [_ _ _ _ _ R _ _].
  specialize (R 1 ltac:(lia)). rewrite (item_n (clamp d) 1 P) in R. change (uts_f (clamp d)) with (uts_f d) in R.
  rewrite R. clear R.
  assert (C1 : (d_int (clamp d) =? 1) = (d_int d =? 1)) by (unfold clamp; cbn [d_int]; destruct (N.eqb_spec (N.min (d_int d) 1000) 1), (N.eqb_spec (d_int d) 1); lia).
  assert (C0 : (d_int (clamp d) =? 0) = (d_int d =? 0)) by (unfold clamp; cbn [d_int]; destruct (N.eqb_spec (N.min (d_int d) 1000) 0), (N.eqb_spec (d_int d) 0); lia).
  rewrite C1, C0. pose proof (uts_t_0 d) as TF.
  destruct (N.eqb_spec (uts_f d) 0) as [Z|Z].
  - rewrite (A Z). now rewrite (proj2 (N.eqb_eq (uts_t d) 0)) by now apply TF.
  - assert (T1 : (uts_t d =? 0) = false) by (apply N.eqb_neq; intro K; apply Z; now apply TF). rewrite T1. cbn [negb andb orb].
    destruct (SFeqb _ _) eqn:Q1; [|reflexivity]. specialize (B eq_refl). cbn [orb].
    destruct (N.eqb_spec (d_int d) 0), (N.eqb_spec (d_int d) 1); auto; lia.
Qed.


(** ** The shipped tables *)
Definition is_danish (b : body) : bool :=
  match b with
  | mkBody [(e, ONE)] OTHER => match b_arms danish with (e', _) :: _ => if bexpr_eq_dec e e' then true else false | [] => false end
  | _ => false
  end.
Lemma is_danish_eq b : is_danish b = true -> b = danish.
Proof.
  destruct b as [[|[e []] [|x l]] []]; try discriminate. cbn [is_danish danish b_arms].
  destruct (bexpr_eq_dec e _) as [->|]; [reflexivity|discriminate].
Qed.
(** integer and fraction digits *)
Definition long_witnesses : list (bytes * bytes) :=
  [(bs "1", bs "0000000000000001"); (bs "2", bs "0000000000000001"); (bs "5", bs "0000000000000001"); (bs "6", bs "0000000000000001");
   (bs "8", bs "0000000000000001");
   (bs "9007199254740993", []); (bs "9007199254740999", []); (bs "9007199254741001", []);
   (bs "9007199254741005", []); (bs "9007199254741021", []); (bs "103", []); (bs "102", []);
   (bs "0", (repeat 48 330 ++ bs "1")%list)].
Definition witness_text (w : bytes * bytes) : bytes := (fst w ++ match snd w with [] => [] | _ => 46 :: snd w end)%list.
Definition witness_decimal (w : bytes * bytes) : decimal := mkDecimal (dval (fst w)) (List.map (fun c => c - 48) (snd w)).
Definition wrong_at (b : body) (rs : list (category * condition)) (w : bytes * bytes) : bool :=
  match operands_from_str (witness_text w) with
  | Ok po => match eval_body b po with Ok c => negb (cldr_selectb rs (witness_decimal w) c) | _ => false end
  | _ => false
  end.
Definition rules_in (l : list (langid * list (category * condition))) (id : langid) : option (list (category * condition)) :=
  option_map snd (List.find (fun e => langid_eqb id (fst e)) l).
Definition safe (r : option (list (category * condition))) (e : langid * body) : bool :=
  match r with
  | Some rs => rules_robust rs && rules_supported false rs && body_matches (snd e) rs && (body_robust (snd e) || is_danish (snd e))
  | None => false
  end.
Definition length_ok (l : list (langid * list (category * condition))) (t : pr_type) (e : langid * body) : bool :=
  if listed (fst e) (any_length t) then safe (rules_in l (fst e)) e
  else match rules_in l (fst e) with Some rs => match List.find (wrong_at (snd e) rs) long_witnesses with Some _ => true | None => false end | None => false end.
Lemma all_length t : forallb (length_ok (cldr t) t) (prs t) = true.
Proof. destruct t; vm_compute; reflexivity. Qed.
Lemma entry_length how id t pr : create how id t = Ok pr -> length_ok (cldr t) t (id, pr_function pr) = true.
Proof.
  intro C. apply C22_lemma in C as [I _]. pose proof (all_length t) as H. rewrite forallb_forall in H. exact (H _ I).
Qed.
Lemma C88_safe_lemma how id t pr w s d : create how id t = Ok pr -> listed id (any_length t) = true ->
  numeral s d -> accepted s ->
  exists rules c, In (id, rules) (cldr t) /\ select w pr (InStr s) = Ok c /\ cldr_select rules d c.
Proof.
  intros C L Nm A. apply entry_length in C. unfold length_ok in C. cbn [fst snd] in C. rewrite L in C.
  change (rules_in (cldr t) id) with (find_rules t id) in C.
  unfold safe in C. cbn [fst snd] in C. destruct (find_rules t id) as [rs|] eqn:F; [|discriminate].
  apply andb_prop in C as [C C4]. apply andb_prop in C as [C C3]. apply andb_prop in C as [C1 C2].
  apply accepted_iff in A as (po & Q). pose proof (numeral_proper s d Nm) as P.
  destruct (body_follows false (pr_function pr) rs (ideal d) (clamp d) C3 C2 (ideal_represents d P) P ltac:(discriminate)) as (c & E & S).
  exists rs, c. split; [now apply find_rules_in|]. split; [|now apply select_clamp].
  unfold select. cbn [to_operands]. rewrite Q, <- E.
  apply orb_prop in C4 as [C4|C4].
  - apply body_robust_eq; [exact C4|]. now apply (fields_alike s).
  - apply is_danish_eq in C4. rewrite C4. now apply (danish_eq s).
Qed.
Lemma witness_numeral w : In w long_witnesses -> numeral (witness_text w) (witness_decimal w).
Proof.
  intro I.
  assert (A : forallb (fun w => negb (match fst w with [] => true | _ => false end) && forallb is_digit (fst w) && forallb is_digit (snd w)) long_witnesses = true)
    by (vm_compute; reflexivity).
  rewrite forallb_forall in A. specialize (A _ I). cbv beta in A. apply andb_prop in A as [A A3]. apply andb_prop in A as [A1 A2].
  apply digits_forallb in A2, A3. exists [], (fst w), (snd w). split; [now left|]. split; [exact A2|].
  split; [intro K; unfold bytes in K; rewrite K in A1; discriminate|]. split; [exact A3|]. split; reflexivity.
Qed.
Lemma C88_wrong_lemma how id t pr w : create how id t = Ok pr -> listed id (any_length t) = false ->
  exists s d rules c, numeral s d /\ accepted s /\ In (id, rules) (cldr t) /\ select w pr (InStr s) = Ok c /\ ~ cldr_select rules d c.
Proof.
  intros C L. apply entry_length in C. unfold length_ok in C. cbn [fst snd] in C. rewrite L in C.
  change (rules_in (cldr t) id) with (find_rules t id) in C.
  destruct (find_rules t id) as [rs|] eqn:F; [|discriminate].
  destruct (List.find _ long_witnesses) as [x|] eqn:FD; [|discriminate]. apply List.find_some in FD as [I W]. unfold wrong_at in W.
  destruct (operands_from_str (witness_text x)) as [po| |] eqn:Q; try discriminate.
  destruct (eval_body (pr_function pr) po) as [c| |] eqn:E; try discriminate.
  exists (witness_text x), (witness_decimal x), rs, c. split; [now apply witness_numeral|].
  split; [apply accepted_iff; eauto|]. split; [now apply find_rules_in|].
  split; [unfold select; cbn [to_operands]; now rewrite Q|].
  intro K. apply cldr_selectb_iff in K. rewrite K in W. discriminate.
Qed.
