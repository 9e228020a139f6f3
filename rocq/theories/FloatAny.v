(** * Lemmas behind C89: floating-point numbers of any size *)
From Coq Require Import Lia Lra Reals Floats.SpecFloat.
From Flocq Require Import Core IEEE754.BinarySingleNaN.
From Verif Require Import Base F64 Operands Ast LangId GenRs GenPr RustExpr PluralRules Tables Json Cldr Spec SpecR F64Facts ApiProps
  DigitFacts OperandsFacts OperandsProps FloatProps Shortest GenFacts GenMeaning Represents Conformance ConformanceProps FloatConf
  BehaviourSpec LengthSpec SampleProps SpellingProps LengthProps LengthFloat.
Open Scope N_scope.

(** ** Large even integers *)
Definition large_i (i : N) : Prop := 1000 <= i /\ i <= u64_max /\ (N.even i = true \/ i = u64_max).
Definition large (po : operands) : Prop :=
  large_i (op_i po) /\ (forall k, k < 1000 -> SFeqb (op_n po) (f64_of_N k) = false) /\
  op_v po = 0 /\ op_w po = 0 /\ op_f po = 0 /\ op_t po = 0.
Definition thousand : operands := mkOps (f64_of_N 1000) 1000 0 0 0 0.

(** a test of the remainder by m has the same outcome for all of them *)
Definition same_rest (odd_too : bool) (m : N) (p : N -> bool) : bool :=
  if m <=? 1000 then
    negb (m =? 0) && N.even m &&
    forallb (fun r => let r := N.of_nat r in
      if N.even r || (odd_too && (r =? u64_max mod m)) then Bool.eqb (p r) (p (1000 mod m)) else true) (List.seq 0 (N.to_nat m))
  else false.
Lemma even_rest m i : m <> 0 -> N.even m = true -> N.even (i mod m) = N.even i.
Proof.
  intros Z E. rewrite (N.div_mod i m) at 2 by exact Z. rewrite N.add_comm. symmetry. apply N.even_add_mul_even. now apply N.even_spec.
Qed.
Lemma same_rest_eq odd_too m p i : same_rest odd_too m p = true -> N.even i = true \/ (odd_too = true /\ i = u64_max) ->
  m <> 0 /\ p (i mod m) = p (1000 mod m).
Proof.
  unfold same_rest. destruct (m <=? 1000) eqn:L; [|discriminate]. intros H I.
  apply andb_prop in H as [H H3]. apply andb_prop in H as [H1 H2]. apply Bool.negb_true_iff, N.eqb_neq in H1. split; [exact H1|].
  rewrite forallb_forall in H3. specialize (H3 (N.to_nat (i mod m))).
  rewrite N2Nat.id in H3. cbv zeta in H3.
  assert (J : N.even (i mod m) || (odd_too && (i mod m =? u64_max mod m)) = true).
  { destruct I as [I|[-> ->]]; [rewrite even_rest, I by auto; reflexivity|]. cbn [andb]. now rewrite N.eqb_refl, Bool.orb_true_r. }
  rewrite J in H3. apply Bool.eqb_prop. apply H3. apply in_seq. pose proof (N.mod_lt i m H1). lia.
Qed.

(** ** Closures *)
Fixpoint even_robust (e : bexpr) : bool :=
  match e with
  | BCmpNL (NField OI) (CEq | CNe) (LInt k) => k <? 1000
  | BCmpNL (NField ON) (CEq | CNe) (LFloat k) => k <? 1000
  | BContains lo hi (NField OI) => hi <? 1000
  | BCmpNL (NMod OI m) (CEq | CNe) (LInt k) => same_rest true m (fun r => r =? k)
  | BContains lo hi (NMod OI m) => same_rest true m (fun r => (lo <=? r) && (r <=? hi))
  | BCmpNL x _ (LInt _) => fraction_field x
  | BContains _ _ x => fraction_field x
  | BNot b => even_robust b
  | BAnd a b | BOr a b => even_robust a && even_robust b
  | _ => false
  end.
Lemma thousand_large : large thousand.
Proof.
  split; [|split; [|auto]].
  - split; [cbn; lia|]. split; [cbn; unfold u64_max; lia|now left].
  - intros k K. cbn [thousand op_n]. destruct (compares_int 1000 ltac:(lia) k ltac:(lia)) as (-> & _). apply N.eqb_neq. lia.
Qed.
Lemma fraction_field_large x po : fraction_field x = true -> large po ->
  eval_int x po = eval_int x thousand /\ is_float x = false.
Proof.
  intros F (_ & _ & V & W & Ff & T). split; [|destruct x as [[]|[] m]; easy].
  destruct x as [[]|[] m]; try discriminate; cbn; now rewrite ?V, ?W, ?Ff, ?T.
Qed.
Lemma lit_value k k' : lit_int (LInt k) = Ok k' -> k' = k.
Proof. cbn. destruct (k <=? u64_max); [now injection 1|discriminate]. Qed.
Lemma large_rest po m p : large po -> same_rest true m p = true -> m <> 0 /\ p (op_i po mod m) = p (1000 mod m).
Proof. intros ((_ & _ & E) & _) H. apply (same_rest_eq true m p _ H). destruct E; auto. Qed.
Lemma even_robust_eq e po : even_robust e = true -> large po -> eval e po = eval e thousand.
Proof.
  intros H A. pose proof thousand_large as T. 
  assert (Nr : near (op_i po) (op_i thousand)) by (right; split; [apply A|cbn; lia]).
  induction e as [x op l|l op x|lo hi x|e IH|e1 IH1 e2 IH2|e1 IH1 e2 IH2]; cbn [even_robust] in H.
  - destruct (fraction_field x) eqn:F.
    { destruct (fraction_field_large x po F A) as [E Fl]. cbn [eval]. now rewrite Fl, E. }
    destruct x as [[]|[] m]; try discriminate F; try (destruct op, l; discriminate).
    + assert (K : exists k, l = LFloat k /\ k < 1000 /\ (op = CEq \/ op = CNe)).
      { destruct op, l as [k|k]; try discriminate; apply N.ltb_lt in H; eauto. }
      destruct K as (k & -> & K & Q). cbn [eval is_float lit_float rbind]. destruct A as (_ & A & _), T as (_ & T & _).
      destruct Q as [->| ->]; cbn [cmp_float]; now rewrite (A k K), (T k K).
    + assert (K : exists k, l = LInt k /\ k < 1000 /\ (op = CEq \/ op = CNe)).
      { destruct op, l as [k|k]; try discriminate; apply N.ltb_lt in H; eauto. }
      destruct K as (k & -> & K & Q). cbn [eval is_float eval_int int_field unwrap].
      destruct (lit_int (LInt k)) as [k'| |] eqn:L; try reflexivity. cbn [rbind]. apply lit_value in L. subst k'.
      destruct Q as [->| ->]; cbn [cmp_int]; now rewrite (near_eqb _ _ k Nr K).
    + assert (K : exists k, l = LInt k /\ same_rest true m (fun r => r =? k) = true /\ (op = CEq \/ op = CNe)).
      { destruct op, l as [k|k]; try discriminate; eauto. }
      destruct K as (k & -> & K & Q). cbn [eval is_float eval_int int_field unwrap rbind].
      destruct (lit_int (LInt k)) as [k'| |] eqn:L; try reflexivity. cbn [rbind]. apply lit_value in L. subst k'.
      destruct (large_rest po m _ A K) as [M E]. rewrite (proj2 (N.eqb_neq m 0) M). cbn [rbind].
      change (op_i thousand) with 1000. destruct Q as [->| ->]; cbn [cmp_int]; now rewrite E.
  - discriminate.
  - destruct (fraction_field x) eqn:F.
    { destruct (fraction_field_large x po F A) as [E Fl]. cbn [eval]. now rewrite E. }
    destruct x as [[]|[] m]; try discriminate; cbn [eval eval_int int_field unwrap rbind];
    (destruct (lit_int (LInt lo)) as [lo'| |] eqn:L; try reflexivity; destruct (lit_int (LInt hi)) as [hi'| |] eqn:L'; try reflexivity;
     cbn [rbind]; apply lit_value in L, L'; subst lo' hi').
    + apply N.ltb_lt in H. f_equal. now apply near_range.
    + destruct (large_rest po m _ A H) as [M E]. rewrite (proj2 (N.eqb_neq m 0) M). cbn [rbind].
      change (op_i thousand) with 1000. now rewrite E.
  - cbn [eval]. now rewrite IH.
  - apply andb_prop in H as [H1 H2]. cbn [eval]. now rewrite IH1, IH2.
  - apply andb_prop in H as [H1 H2]. cbn [eval]. now rewrite IH1, IH2.
Qed.
Definition body_even (f : body) : bool := forallb (fun '(e, _) => even_robust e) (b_arms f).
Lemma body_even_eq f po : body_even f = true -> large po -> eval_body f po = eval_body f thousand.
Proof.
  unfold body_even, eval_body. intros H A. induction (b_arms f) as [|[e c] r IH]; [reflexivity|].
  cbn [forallb] in H. apply andb_prop in H as [H1 H2]. cbn [eval_arms]. now rewrite (even_robust_eq e po H1 A), IH.
Qed.

(** ** CLDR conditions *)
Definition whole (D : N) : decimal := mkDecimal D [].
Definition rel_even (r : relation) : bool :=
  negb (is_within (rel_op r)) &&
  match ex_operand (rel_expr r), ex_modulus (rel_expr r) with
  | ON, None | OI, None => forallb (value_below 1000) (rel_list r)
  | ON, Some m | OI, Some m => forallb (fun it => same_rest false m (fun r => item_in (r, 1) it)) (rel_list r)
  | _, _ => true
  end.
Lemma whole_n D m : uts_expr (mkExpr ON m) (whole D) = uts_expr (mkExpr OI m) (whole D).
Proof.
  unfold uts_expr, uts_operand, uts_num, uts_den, uts_f, uts_v, whole, uts_i. cbn [ex_operand ex_modulus d_int d_frac List.length frac_value].
  change (10 ^ N.of_nat 0) with 1. now rewrite N.mul_1_r, N.add_0_r.
Qed.
Lemma item_whole o m it D : 1000 <= D -> N.even D = true ->
  match o, m with
  | ON, None | OI, None => value_below 1000 it
  | ON, Some m | OI, Some m => same_rest false m (fun r => item_in (r, 1) it)
  | _, _ => true
  end = true -> item_in (uts_expr (mkExpr o m) (whole D)) it = item_in (uts_expr (mkExpr o m) (whole 1000)) it.
Proof.
  intros G Ev H.
  assert (I : match m with None => value_below 1000 it | Some m => same_rest false m (fun r => item_in (r, 1) it) end = true ->
    item_in (uts_expr (mkExpr OI m) (whole D)) it = item_in (uts_expr (mkExpr OI m) (whole 1000)) it).
  { clear H. intro H. unfold uts_expr, uts_operand, uts_i, whole. cbn [ex_operand ex_modulus d_int]. destruct m as [m|].
    - rewrite !N.mul_1_r. apply (same_rest_eq false m (fun r => item_in (r, 1) it) D H). now left.
    - destruct it as [rg|k]; cbn [value_below] in H; cbn [item_in].
      + apply andb_prop in H as [_ H]. apply N.ltb_lt in H. rewrite !N.mod_1_r, !N.mul_1_r. cbn [N.eqb andb].
        apply near_range; [right; lia|exact H].
      + apply N.ltb_lt in H. rewrite !N.mul_1_r. apply near_eqb; [right; lia|exact H]. }
  destruct o; try (now destruct m; reflexivity); [rewrite !whole_n; apply I; now destruct m|apply I; now destruct m].
Qed.
Lemma rel_whole r D : 1000 <= D -> N.even D = true -> rel_even r = true -> uts_relation r (whole D) = uts_relation r (whole 1000).
Proof.
  intros G Ev R. unfold rel_even in R. apply andb_prop in R as [W R]. apply Bool.negb_true_iff in W.
  assert (I : forall it, In it (rel_list r) -> item_in (uts_expr (rel_expr r) (whole D)) it = item_in (uts_expr (rel_expr r) (whole 1000)) it).
  { intros it J. destruct (rel_expr r) as [o m]. cbn [ex_operand ex_modulus] in R. apply item_whole; auto.
    destruct o, m as [m|]; auto; rewrite forallb_forall in R; exact (R _ J). }
  assert (E : existsb (item_in (uts_expr (rel_expr r) (whole D))) (rel_list r) = existsb (item_in (uts_expr (rel_expr r) (whole 1000))) (rel_list r)).
  { clear R. revert I. induction (rel_list r) as [|it l IH]; intro I; [reflexivity|]. cbn [existsb].
    rewrite (I it (or_introl eq_refl)), IH; [reflexivity|]. intros it' J. apply I. now right. }
  unfold uts_relation. rewrite E. destruct (rel_op r); try reflexivity; discriminate.
Qed.
Definition rules_even (rs : list (category * condition)) : bool :=
  forallb (fun '(c, cond) => cat_eqb c OTHER || forallb (forallb rel_even) cond) rs.
Lemma cond_whole cond D : 1000 <= D -> N.even D = true -> forallb (forallb rel_even) cond = true ->
  uts_condition cond (whole D) = uts_condition cond (whole 1000).
Proof.
  intros G Ev H. unfold uts_condition, uts_and. induction cond as [|a r IH]; [reflexivity|].
  cbn [forallb existsb] in *. apply andb_prop in H as [H1 H2]. rewrite IH by exact H2. f_equal. clear -G Ev H1.
  induction a as [|x l IH]; [reflexivity|]. cbn [forallb] in *. apply andb_prop in H1 as [A B].
  now rewrite (rel_whole x D G Ev A), IH.
Qed.
Lemma select_whole rs D c : 1000 <= D -> N.even D = true -> rules_even rs = true ->
  cldr_select rs (whole 1000) c -> cldr_select rs (whole D) c.
Proof.
  intros G Ev R H. unfold rules_even in R. rewrite forallb_forall in R.
  assert (Q : forall c' cond, In (c', cond) rs -> c' <> OTHER -> uts_condition cond (whole D) = uts_condition cond (whole 1000)).
  { intros c' cond I NO. specialize (R _ I). cbn in R. apply orb_prop in R as [R|R].
    - apply cat_eqb_eq in R. congruence.
    - now apply cond_whole. }
  destruct H as [[NO (cond & I & U)]|[-> U]].
  - left. split; [exact NO|]. exists cond. split; [exact I|]. now rewrite (Q c cond I NO).
  - right. split; [reflexivity|]. intros c' cond I NO. rewrite (Q c' cond I NO). eauto.
Qed.

(** ** The operands of a large integer *)
Lemma mantissa_small m e : valid_binary 53 1024 (S754_finite false m e) = true -> (Z.pos m < 2 ^ 53)%Z.
Proof.
  intro V. cbn [valid_binary] in V. apply andb_prop in V as [V _]. apply canonical_canonical_mantissa with (sx := false) in V.
  unfold canonical in V. cbn [Fexp cond_Zopp] in V.
  destruct (Z.lt_ge_cases (Z.pos m) (2 ^ 53)) as [K|K]; [exact K|exfalso].
  assert (M : (54 + e <= mag radix2 (F2R (Float radix2 (Z.pos m) e)))%Z).
  { apply mag_ge_bpow. unfold F2R. cbn [Fnum Fexp]. rewrite Rabs_mult.
    rewrite (Rabs_pos_eq (bpow radix2 e)) by apply bpow_ge_0. rewrite Rabs_pos_eq by (apply IZR_le; lia).
    replace (54 + e - 1)%Z with (53 + e)%Z by lia. rewrite bpow_plus. apply Rmult_le_compat_r; [apply bpow_ge_0|].
    rewrite <- IZR_Zpower by lia. now apply IZR_le. }
  unfold SpecFloat.fexp, cexp in V. lia.
Qed.
Lemma positive_exponent m e : valid_binary 53 1024 (S754_finite false m e) = true ->
  (IZR (2 ^ 53) <= SF2R radix2 (S754_finite false m e))%R -> exists p, e = Z.pos p.
Proof.
  intros V L. apply mantissa_small in V as B. destruct e as [|p|p]; [exfalso|now exists p|exfalso].
  - unfold SF2R, F2R in L. cbn [Fnum Fexp cond_Zopp bpow] in L. rewrite Rmult_1_r in L. apply le_IZR in L. lia.
  - unfold SF2R, F2R in L. cbn [Fnum Fexp cond_Zopp] in L.
    assert (bpow radix2 (Z.neg p) <= 1)%R by (change 1%R with (bpow radix2 0); apply bpow_le; lia).
    assert (0 < bpow radix2 (Z.neg p))%R by apply bpow_gt_0.
    assert (IZR (Z.pos m) < IZR (2 ^ 53))%R by (apply IZR_lt; lia).
    assert (0 < IZR (Z.pos m))%R by (apply IZR_lt; lia). nra.
Qed.
Lemma value_N m p : SF2R radix2 (S754_finite false m (Z.pos p)) = IZR (Z.of_N (N.pos m * 2 ^ N.pos p)).
Proof.
  unfold SF2R, F2R. cbn [Fnum Fexp cond_Zopp]. rewrite <- IZR_Zpower, <- mult_IZR by lia. f_equal.
  rewrite N2Z.inj_mul, N2Z.inj_pow. reflexivity.
Qed.
Lemma even_N m p : N.even (N.pos m * 2 ^ N.pos p) = true.
Proof. rewrite N.even_mul, N.even_pow by discriminate. apply Bool.orb_true_r. Qed.
Lemma big_float D : 2 ^ 53 <= D -> let x := f64_of_N D in
  x = S754_infinity false \/ exists m p, x = S754_finite false m (Zpos p) /\ (IZR (2 ^ 53) <= SF2R radix2 x)%R.
Proof.
  intros G x. destruct (dec64_correct D 0) as [V C]. rewrite dec_real_int in C.
  change (dec64 D 0) with x in *.
  assert (L : (IZR (2 ^ 53) <= rnd64 (IZR (Z.of_N D)))%R).
  { rewrite <- (rnd64_int (2 ^ 53)) by lia. apply round_le; auto with typeclass_instances. apply IZR_le. lia. }
  destruct (Rlt_bool _ _) in C; [|now left]. destruct C as (C1 & C2 & C3). rewrite <- C1 in L. right.
  destruct x as [s|s| |s m e]; try discriminate C2.
  - exfalso. cbn in L. lra.
  - cbn in C3. subst s. destruct (positive_exponent m e V L) as (p & ->). eauto.
Qed.
Lemma big_operands D : 2 ^ 53 <= D -> large (mkOps (f64_of_N D) (float_to_u64 (f64_of_N D)) 0 0 0 0).
Proof.
  intro G. pose proof (big_float D G) as H. cbv zeta in H. unfold large. cbn [op_n op_i op_v op_w op_f op_t].
  split; [|split; [|auto]].
  - destruct H as [->|(m & p & E & L)].
    + split; [unfold float_to_u64, u64_max; lia|]. split; [cbn; lia|]. now right.
    + rewrite E. cbn [float_to_u64]. unfold large_i.
      pose proof (even_N m p) as Ev.
      assert (B : 1000 <= N.pos m * 2 ^ N.pos p).
      { rewrite E, value_N in L. apply le_IZR in L. lia. }
      split; [unfold u64_max in *; lia|]. split; [lia|].
      destruct (N.min_spec (N.pos m * 2 ^ N.pos p) u64_max) as [[_ ->]|[_ ->]]; auto.
  - intros k K. destruct H as [->|(m & p & E & L)].
    + pose proof (f64_of_N_exact k ltac:(lia)) as (_ & F & _). destruct (f64_of_N k); try discriminate F; reflexivity.
    + destruct (f64_of_N_exact k ltac:(lia)) as (A & B & _).
      rewrite SFeqb_correct; auto using valid_f64_of_N; [|now rewrite E]. rewrite A.
      apply Req_bool_false. intro Q. rewrite Q in L. apply le_IZR in L. lia.
Qed.
Lemma large_numeral s D po : numeral s (whole D) -> 2 ^ 53 <= D -> operands_from_str s = Ok po -> large po.
Proof.
  intros (sg & i & f & S & Di & Ni & Df & -> & E) G Q. unfold whole in E. destruct f as [|c f]; [|discriminate E].
  rewrite app_nil_r in Q. rewrite from_str_int in Q by auto. injection Q as <-. injection E as ->. now apply big_operands.
Qed.

(** ** The shipped tables *)
Definition even_ok (l : list (langid * list (category * condition))) (t : pr_type) (e : langid * body) : bool :=
  if listed (fst e) (float_wrong t) then true else
  negb (mem (fst e) (integer_wrong t)) && negb (mem (fst e) (fraction_wrong t)) &&
  match rules_in l (fst e) with
  | Some rs => rules_even rs && rules_supported false rs && body_matches (snd e) rs && body_even (snd e)
  | None => false
  end.
Lemma all_even t : forallb (even_ok (cldr t) t) (prs t) = true.
Proof. destruct t; vm_compute; reflexivity. Qed.
Lemma entry_even how id t pr : create how id t = Ok pr -> listed id (float_wrong t) = false ->
  ~ In id (integer_wrong t) /\ ~ In id (fraction_wrong t) /\
  exists rs, In (id, rs) (cldr t) /\ rules_even rs = true /\ rules_supported false rs = true /\
    body_matches (pr_function pr) rs = true /\ body_even (pr_function pr) = true.
Proof.
  intros C L. apply C22_lemma in C as [I _]. pose proof (all_even t) as H. rewrite forallb_forall in H. specialize (H _ I).
  unfold even_ok in H. cbn [fst snd] in H. rewrite L in H. change (rules_in (cldr t) id) with (find_rules t id) in H.
  apply andb_prop in H as [H H3]. apply andb_prop in H as [H1 H2]. apply Bool.negb_true_iff in H1, H2.
  split; [intro K; apply mem_in in K; congruence|]. split; [intro K; apply mem_in in K; congruence|].
  destruct (find_rules t id) as [rs|] eqn:F; [|discriminate]. exists rs. split; [now apply find_rules_in|].
  apply andb_prop in H3 as [H3 H7]. apply andb_prop in H3 as [H3 H6]. apply andb_prop in H3 as [H4 H5]. auto.
Qed.
Lemma thousand_represents : represents thousand (whole 1000).
Proof.
  apply represents_of; try reflexivity. change (uts_num (whole 1000)) with 1000. change (uts_den (whole 1000)) with 1.
  apply compares_int. lia.
Qed.
Lemma large_follows how id t pr w s D : create how id t = Ok pr -> listed id (float_wrong t) = false ->
  numeral s (whole D) -> 2 ^ 53 <= D -> N.even D = true ->
  exists rules c, In (id, rules) (cldr t) /\ select w pr (InStr s) = Ok c /\ cldr_select rules (whole D) c.
Proof.
  intros C L Nm G Ev. destruct (entry_even how id t pr C L) as (_ & _ & rs & I & R1 & R2 & R3 & R4).
  assert (P : proper (whole 1000)) by constructor.
  destruct (body_follows false (pr_function pr) rs thousand (whole 1000) R3 R2 thousand_represents P ltac:(discriminate)) as (c & E & S).
  exists rs, c. split; [exact I|]. split; [|apply select_whole; auto; lia].
  destruct (operands_from_str s) as [po| |] eqn:Q.
  - unfold select. cbn [to_operands]. rewrite Q, <- E. apply body_even_eq; [exact R4|]. now apply (large_numeral s D).
  - exfalso. destruct Nm as (sg & i & f & S' & Di & Ni & Df & -> & E'). unfold whole in E'. destruct f; [|discriminate E'].
    rewrite app_nil_r, from_str_int in Q by auto. discriminate Q.
  - exfalso. destruct Nm as (sg & i & f & S' & Di & Ni & Df & -> & E'). unfold whole in E'. destruct f; [|discriminate E'].
    rewrite app_nil_r, from_str_int in Q by auto. discriminate Q.
Qed.

(** ** Finite floats *)
Lemma not_below x : ~ below_2_53 x -> (IZR (2 ^ 53) <= SF2R radix2 x)%R.
Proof. intro H. apply Rnot_lt_le. exact H. Qed.
Lemma decimal_whole d E dd : decimal_of d E dd -> (0 <= E)%Z -> dd = whole (d * 10 ^ Z.to_N E).
Proof.
  intros (A & B & _) HE. replace (Z.to_N (- E)) with 0 in B by lia. destruct dd as [i f]. unfold uts_v in B. cbn [d_frac] in B.
  destruct f; [|discriminate]. unfold whole. f_equal. rewrite <- A. unfold uts_num, uts_den, uts_f, uts_v. cbn. lia.
Qed.
Lemma even_shift d E : (0 < E)%Z -> N.even (d * 10 ^ Z.to_N E) = true.
Proof. intro H. rewrite N.even_mul, N.even_pow by lia. apply Bool.orb_true_r. Qed.
Lemma dec_real_whole d E : (0 <= E)%Z -> dec_real d E = IZR (Z.of_N (d * 10 ^ Z.to_N E)).
Proof. intro HE. rewrite <- (Z.add_0_l E) at 1. now rewrite <- (dec_real_shift d 0 E HE), dec_real_int. Qed.

Lemma big_f64 s m e : valid64 (S754_finite s m e) -> ~ below_2_53 (S754_finite false m e) ->
  exists d E D, shortest_decimal d E (S754_finite false m e) /\ d mod 10 <> 0 /\ decimal_of d E (whole D) /\
    numeral (f64_to_string (S754_finite s m e)) (whole D) /\ 2 ^ 53 <= D /\ N.even D = true.
Proof.
  intros V L. apply not_below in L.
  destruct (f64_printed s m e V) as (d & E & Q & X & P & B & M & Mx & Sh & Cl).
  destruct (printed_numeral _ d E (minus_opt_sign s) P M) as (dd & Nu & De & _).
  destruct (positive_exponent m e V L) as (p & ->). rewrite value_N in L.
  set (K := N.pos m * 2 ^ N.pos p) in *.
  assert (XK : dec64 K 0 = S754_finite false m (Z.pos p)) by (apply int_dec64; auto; apply value_N).
  pose proof (Mx K 0%Z XK) as HE.
  pose proof (decimal_whole d E dd De HE) as ->.
  exists d, E, (d * 10 ^ Z.to_N E). split; [|split; [exact M|split; [exact De|split; [now rewrite Q|]]]].
  { split; [now apply nearest64_dec|]. split; [intros d' E' k H L'; apply nearest64_dec in H; eauto|].
    intros d' E' H L'. apply nearest64_dec in H. now apply Cl. }
  split.
  - destruct (N.le_gt_cases (2 ^ 53) (d * 10 ^ Z.to_N E)) as [G|G]; [exact G|exfalso].
    destruct (dec64_correct d E) as [_ C]. rewrite X in C. destruct (Rlt_bool _ _) in C; [|discriminate C]. destruct C as [C _].
    rewrite value_N in C. fold K in C. rewrite dec_real_whole in C by exact HE. rewrite rnd64_int in C by lia.
    rewrite C in L. apply le_IZR in L. lia.
  - destruct (Z.eq_dec E 0) as [->|NE]; [|apply even_shift; lia].
    rewrite N.pow_0_r, N.mul_1_r.
    specialize (Cl K 0%Z XK ltac:(lia)). rewrite value_N in Cl. fold K in Cl. rewrite !dec_real_int in Cl. unfold closer in Cl.
    assert (Z0 : Rabs (IZR (Z.of_N K) - IZR (Z.of_N K)) = 0%R) by (rewrite Rminus_diag_eq, Rabs_R0; reflexivity). rewrite Z0 in Cl.
    assert (D0 : (IZR (Z.of_N d) - IZR (Z.of_N K))%R = 0%R).
    { destruct Cl as [Cl|[Cl _]]; [pose proof (Rabs_pos (IZR (Z.of_N d) - IZR (Z.of_N K))); lra|]. 
      destruct (Req_dec (IZR (Z.of_N d) - IZR (Z.of_N K)) 0) as [Y|Y]; [exact Y|]. now apply Rabs_no_R0 in Y. }
    apply Rminus_diag_uniq, eq_IZR in D0. replace d with K by lia. apply even_N.
Qed.
Lemma C89_f64_lemma how id t pr w x : create how id t = Ok pr -> listed id (float_wrong t) = false ->
  valid64 x -> is_finite_SF x = true ->
  exists d E dd rules c, shortest_decimal d E (SFabs x) /\ (d = 0 \/ d mod 10 <> 0) /\ decimal_of d E dd /\
    In (id, rules) (cldr t) /\ select w pr (InF64 x) = Ok c /\ cldr_select rules dd c.
Proof.
  intros C L V F. destruct (entry_even how id t pr C L) as (N1 & N2 & _).
  destruct (Rlt_le_dec (SF2R radix2 (SFabs x)) (IZR (2 ^ 53))) as [B|B].
  - destruct (follows_f64 how id t pr w x C V F B N1) as (d & E & dd & A1 & A2 & A3 & A4).
    destruct A4 as (rules & c & A4); [intro K; now apply N2 in K|]. exists d, E, dd, rules, c. tauto.
  - destruct x as [s|s| |s m e]; try discriminate F; [exfalso; cbn in B; lra|]. cbn [SFabs] in *.
    destruct (big_f64 s m e V) as (d & E & D & A1 & A2 & A3 & A4 & A5 & A6); [intro K; unfold below_2_53 in K; lra|].
    destruct (large_follows how id t pr w _ D C L A4 A5 A6) as (rules & c & B1 & B2 & B3).
    exists d, E, (whole D), rules, c. auto 10.
Qed.

(** ** The other locales *)
Lemma numeral_det s d d' : numeral s d -> numeral s d' -> d = d'.
Proof.
  intros A B. pose proof (numeral_proper s d A) as P. pose proof (numeral_proper s d' B) as P'.
  apply read_numeral_complete in A, B. rewrite A in B. injection B as E1 E2.
  rewrite <- (decimal_with_ok d P), <- (decimal_with_ok d' P'). now rewrite E1, E2.
Qed.
Definition float_witnesses : list (spec_float * (bytes * bytes)) :=
  [(S754_finite false 4503599627370496 (-53), (bs "0", bs "5")); (S754_finite false 6755399441055744 (-52), (bs "1", bs "5"));
   (S754_finite false 5629499534213120 (-51), (bs "2", bs "5")); (S754_finite false 7881299347898368 (-51), (bs "3", bs "5"));
   (S754_finite false 7318349394477056 (-50), (bs "6", bs "5")); (S754_finite false 7247980650299392 (-46), (bs "103", []));
   (S754_finite false 4503599627370499 3, (bs "36028797018963990", [])); (S754_finite false 4503599627370498 3, (bs "36028797018963980", []));
   (S754_finite false 4503599627370519 4, (bs "72057594037928300", []))].
Lemma float_texts : forallb (fun '(x, w) => SpecFloat.valid_binary 53 1024 x && bytes_eqb (f64_to_string x) (witness_text w) &&
  negb (match fst w with [] => true | _ => false end) && forallb is_digit (fst w) && forallb is_digit (snd w)) float_witnesses = true.
Proof. vm_compute. reflexivity. Qed.
Definition float_wrong_ok (l : list (langid * list (category * condition))) (t : pr_type) (e : langid * body) : bool :=
  if listed (fst e) (float_wrong t) then
    match rules_in l (fst e) with
    | Some rs => match List.find (fun x => wrong_at (snd e) rs (snd x)) float_witnesses with Some _ => true | None => false end
    | None => false
    end
  else true.
Lemma all_float_wrong t : forallb (float_wrong_ok (cldr t) t) (prs t) = true.
Proof. destruct t; vm_compute; reflexivity. Qed.
Lemma C89_wrong_lemma how id t pr w : create how id t = Ok pr -> listed id (float_wrong t) = true ->
  exists x d E dd rules c, valid64 x /\ is_finite_SF x = true /\
    shortest_decimal d E (SFabs x) /\ d mod 10 <> 0 /\ decimal_of d E dd /\
    In (id, rules) (cldr t) /\ select w pr (InF64 x) = Ok c /\ ~ cldr_select rules dd c.
Proof.
  intros C L. apply C22_lemma in C as [I _]. pose proof (all_float_wrong t) as H. rewrite forallb_forall in H. specialize (H _ I).
  unfold float_wrong_ok in H. cbn [fst snd] in H. rewrite L in H. change (rules_in (cldr t) id) with (find_rules t id) in H.
  destruct (find_rules t id) as [rs|] eqn:F; [|discriminate].
  destruct (List.find _ float_witnesses) as [[x u]|] eqn:FD; [|discriminate]. apply List.find_some in FD as [J W]. cbn [snd] in W.
  pose proof float_texts as T. rewrite forallb_forall in T. specialize (T _ J). cbv beta iota in T.
  apply andb_prop in T as [T T5]. apply andb_prop in T as [T T4]. apply andb_prop in T as [T T3]. apply andb_prop in T as [T1 T2].
  apply bytes_eqb_eq in T2. apply digits_forallb in T4, T5.
  assert (Nm : numeral (f64_to_string x) (witness_decimal u)).
  { rewrite T2. exists [], (fst u), (snd u). split; [now left|]. split; [exact T4|].
    split; [intro K; rewrite K in T3; discriminate|]. split; [exact T5|]. split; reflexivity. }
  assert (Fi : is_finite_SF x = true).
  { clear -J. repeat (destruct J as [J|J]; [injection J as <- _; easy|]). destruct J. }
  destruct (f64_numeral x T1 Fi) as (d & E & dd & A1 & A2 & A3 & A4).
  pose proof (numeral_det _ _ _ A4 Nm) as ->.
  unfold wrong_at in W. destruct (operands_from_str (witness_text u)) as [po| |] eqn:Q; try discriminate.
  destruct (eval_body (pr_function pr) po) as [c| |] eqn:E0; try discriminate.
  exists x, d, E, (witness_decimal u), rs, c. split; [exact T1|]. split; [exact Fi|]. split; [exact A1|].
  split.
  { destruct A2 as [->|A2]; [exfalso|exact A2]. destruct A3 as (A3 & _). rewrite N.mul_0_l in A3.
    clear -J A3. repeat (destruct J as [J|J]; [injection J as _ <-; vm_compute in A3; discriminate|]). destruct J. }
  split; [exact A3|]. split; [now apply find_rules_in|].
  split; [unfold select; cbn [to_operands]; unfold operands_from_f64; now rewrite T2, Q|].
  intro K. apply cldr_selectb_iff in K. rewrite K in W. discriminate.
Qed.
