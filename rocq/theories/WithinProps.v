(** * C47-C49: ranges with modulus on n, and within *)
From Coq Require Import Lia Floats.SpecFloat.
From Verif Require Import Base F64 Operands Ast Tokens GenPr RustExpr Spec DigitFacts GenFacts GenMeaning.
Open Scope N_scope.

Definition gen_value (c : condition) (po : operands) : res bool :=
  match gen_pr c with
  | Ok ts => match read_bexpr ts with Some e => eval e po | None => Panic "no expression" end
  | Err e => Err e
  | Panic w => Panic w
  end.
Lemma gen_value_cond c po : cond_nonempty c ->
  gen_value c po = res_or (List.map (fun a => res_and (List.map (fun r => rel_value r po) a)) c).
Proof.
  intro N. destruct (C46_lemma c N) as (ts & e & G & R & E). unfold gen_value. now rewrite G, R.
Qed.
Lemma gen_value_rel r po : rel_nonempty r -> gen_value [[r]] po = rel_value r po.
Proof.
  intro N. rewrite gen_value_cond.
  - cbn [List.map]. now rewrite res_or_single, res_and_single.
  - split; [easy|]. constructor; [|constructor]. split; [easy|]. now constructor.
Qed.

(** C47: what is generated for [n % m = a..b] *)
Lemma n_mod_range_value m a b po : a < 2 ^ 64 -> b < 2 ^ 64 ->
  gen_value [[mkRel (mkExpr ON (Some m)) OpEQ [RRange (mkRange a b)]]] po =
  Ok ((a <=? op_i po) && (op_i po <=? b)).
Proof.
  intros A B. rewrite gen_value_rel by easy.
  rewrite (proj2 (rel_value_conjs (mkRel (mkExpr ON (Some m)) OpEQ [RRange (mkRange a b)]) [BContains a b (NField OI)] po eq_refl)).
  cbn [evals List.map]. rewrite res_and_single. cbn [eval lit_int].
  now rewrite (below_u64_max a A), (below_u64_max b B).
Qed.
Lemma C47_partial_lemma m a b po d :
  a < 2 ^ 64 -> b < 2 ^ 64 -> represents po d -> uts_f d = 0 -> uts_i d < m ->
  gen_value [[mkRel (mkExpr ON (Some m)) OpEQ [RRange (mkRange a b)]]] po =
  Ok (uts_relation (mkRel (mkExpr ON (Some m)) OpEQ [RRange (mkRange a b)]) d).
Proof.
  intros A B R F I. rewrite n_mod_range_value by assumption. f_equal.
  unfold uts_relation, uts_expr. cbn [rel_op rel_expr rel_list ex_operand ex_modulus uts_operand existsb item_in lower_val upper_val].
  pose proof (den_pos d) as DP. rewrite (rp_i _ _ R), Bool.orb_false_r. unfold uts_num. rewrite F, N.add_0_r.
  rewrite N.mul_mod_distr_r by lia. rewrite N.mod_mul by lia. cbn [N.eqb andb]. unfold uts_i in *.
  rewrite N.mod_small by lia.
  f_equal.
  - destruct (N.leb_spec a (d_int d)), (N.leb_spec (a * uts_den d) (d_int d * uts_den d)); auto; nia.
  - destruct (N.leb_spec (d_int d) b), (N.leb_spec (d_int d * uts_den d) (b * uts_den d)); auto; nia.
Qed.

(** C48 *)
Definition within_supported (assume_int : bool) (ex : expression) (rg : range) : bool :=
  match ex_modulus ex with Some m => (0 <? m) && (m <? 2 ^ 64) | None => true end &&
  match ex_operand ex, ex_modulus ex with
  | ON, None => (lower_val rg <? 2 ^ 53) && (upper_val rg <? 2 ^ 53)
  | ON, Some _ => assume_int && (lower_val rg <? 2 ^ 64) && (upper_val rg <? 2 ^ 64)
  | OI, Some _ => (lower_val rg <? 2 ^ 64) && (upper_val rg <? 2 ^ 64)
  | _, None => (lower_val rg <? 2 ^ 64) && (upper_val rg <? 2 ^ 64)
  | _, Some _ => false
  end.
Lemma int_leb op x po lo hi v :
  is_float x = false -> eval_int x po = Ok v -> lo < 2 ^ 64 -> hi < 2 ^ 64 ->
  res_and (evals po [BCmpLN (LInt lo) op x; BCmpNL x op (LInt hi)]) = Ok (cmp_int op lo v && cmp_int op v hi).
Proof.
  intros F E L H. cbn [evals List.map eval]. rewrite F. cbn [lit_int].
  rewrite (below_u64_max lo L), (below_u64_max hi H). cbn [rbind]. rewrite E. cbn [rbind res_and].
  destruct (cmp_int op lo v), (cmp_int op v hi); reflexivity.
Qed.
Lemma C48_partial_lemma ai ex rg po d :
  represents po d -> (ai = true -> uts_f d = 0) -> within_supported ai ex rg = true ->
  gen_value [[mkRel ex OpWithin [RRange rg]]] po = Ok (uts_relation (mkRel ex OpWithin [RRange rg]) d).
Proof.
  intros R AI S. rewrite gen_value_rel by easy.
  rewrite (proj2 (rel_value_conjs (mkRel ex OpWithin [RRange rg]) (within_conj (mkRel ex OpWithin [RRange rg]) rg) po eq_refl)).
  unfold within_conj. cbn [rel_op rel_expr].
  unfold within_supported in S. apply andb_prop in S as [SM S]. destruct ex as [o m].
  cbn [ex_operand ex_modulus] in *.
  unfold uts_relation, uts_expr. cbn [rel_op rel_expr rel_list ex_operand ex_modulus existsb].
  pose proof (den_pos d) as DP.
  assert (INT : forall a x v, lower_val rg < 2 ^ 64 -> upper_val rg < 2 ^ 64 ->
    is_float x = false -> eval_int x po = Ok v -> v = a ->
    res_and (evals po [BCmpLN (LInt (lower_val rg)) CLe x; BCmpNL x CLe (LInt (upper_val rg))]) =
    Ok (item_within (a, 1) (RRange rg) || false)).
  { intros a x v L H F E ->. rewrite (int_leb CLe x po _ _ a F E L H). cbn [item_within cmp_int].
    now rewrite !N.mul_1_r, Bool.orb_false_r. }
  destruct m as [m|].
  - assert (M : 0 < m) by (apply andb_prop in SM as [SM _]; now apply N.ltb_lt).
    assert (E : eval_int (NMod OI m) po = Ok (op_i po mod m)).
    { cbn. destruct (N.eqb_spec m 0); [lia|reflexivity]. }
    destruct o; try discriminate.
    + apply andb_prop in S as [S S2]. apply andb_prop in S as [S0 S1]. apply N.ltb_lt in S1, S2.
      cbn [within_num value_lit ex_operand ex_modulus uts_operand].
      rewrite (int_leb CLe (NMod OI m) po _ _ _ eq_refl E S1 S2). f_equal. cbn [item_within cmp_int].
      rewrite Bool.orb_false_r, (rp_i _ _ R). unfold uts_num. rewrite (AI S0), N.add_0_r, N.mul_mod_distr_r by lia.
      unfold uts_i. generalize (d_int d mod m). intro v. f_equal.
      * destruct (N.leb_spec (lower_val rg) v), (N.leb_spec (lower_val rg * uts_den d) (v * uts_den d)); auto; nia.
      * destruct (N.leb_spec v (upper_val rg)), (N.leb_spec (v * uts_den d) (upper_val rg * uts_den d)); auto; nia.
    + apply andb_prop in S as [S1 S2]. apply N.ltb_lt in S1, S2.
      cbn [within_num value_lit ex_operand ex_modulus uts_operand]. rewrite N.mul_1_r.
      apply (INT _ _ (op_i po mod m)); auto. now rewrite (rp_i _ _ R).
  - destruct o; cbn [within_num value_lit ex_operand ex_modulus uts_operand];
      apply andb_prop in S as [S1 S2]; apply N.ltb_lt in S1, S2.
    + cbn [evals List.map eval is_float lit_float rbind cmp_float].
      rewrite (rp_ge _ _ R _ S1), (rp_le _ _ R _ S2). cbn [item_within res_and rbind].
      rewrite Bool.orb_false_r. destruct (_ <=? _), (_ <=? _); reflexivity.
    + apply (INT _ _ (op_i po)); auto. apply (rp_i _ _ R).
    + apply (INT _ _ (op_v po)); auto. apply (rp_v _ _ R).
    + apply (INT _ _ (op_w po)); auto. apply (rp_w _ _ R).
    + apply (INT _ _ (op_f po)); auto. apply (rp_f _ _ R).
    + apply (INT _ _ (op_t po)); auto. apply (rp_t _ _ R).
Qed.
(** a [within] relation without a range makes the generator panic *)
Lemma C48_panic_lemma ex op vs : op = OpWithin \/ op = OpNotWithin ->
  gen_pr [[mkRel ex op (List.map RValue vs)]] = Panic "index out of bounds".
Proof.
  intro O.
  assert (V : snd (convert_rangl (List.map RValue vs)) = []) by (induction vs; auto).
  unfold gen_pr, create_condition, create_and_condition. cbn [map_res].
  assert (K : create_relation (mkRel ex op (List.map RValue vs)) = Panic "index out of bounds").
  { unfold create_relation. cbn [rel_expr rel_op rel_list].
    destruct (convert_rangl (List.map RValue vs)) as [values ranges]. cbn [snd] in V. subst ranges.
    destruct O as [->| ->]; destruct (ex_modulus ex); reflexivity. }
  rewrite K. reflexivity.
Qed.
(** only the first range counts *)
Lemma C48_first_lemma ex op l r0 po : op = OpWithin \/ op = OpNotWithin ->
  nth_error (ranges_of l) 0 = Some r0 ->
  gen_value [[mkRel ex op l]] po = gen_value [[mkRel ex op [RRange r0]]] po.
Proof.
  intros O H.
  assert (W : is_within op = true) by (destruct O as [->| ->]; reflexivity).
  assert (C : forall l', nth_error (ranges_of l') 0 = Some r0 ->
    gen_value [[mkRel ex op l']] po = res_and (evals po (within_conj (mkRel ex op [RRange r0]) r0))).
  { intros l' H'. rewrite gen_value_rel.
    - apply (fun K => proj2 (rel_value_conjs _ _ po K)). unfold rel_conjs. cbn [rel_op rel_list]. rewrite W, H'. reflexivity.
    - unfold rel_nonempty. cbn [rel_op rel_list]. rewrite W. now destruct (ranges_of l'). }
  now rewrite (C l H), (C [RRange r0] eq_refl).
Qed.

(** C49: what is generated for [not within] *)
Lemma SFltb_leb x y : SFltb x y = SFleb x y && negb (SFeqb x y).
Proof. unfold SFltb, SFleb, SFeqb. destruct (SFcompare x y) as [[]|]; reflexivity. Qed.
Lemma SFeqb_sym x y : SFeqb x y = SFeqb y x.
Proof.
  unfold SFeqb. destruct x as [[]|[]| |[] m e], y as [[]|[]| |[] m' e']; cbn; try reflexivity.
  - rewrite (Z.compare_antisym e e').
    destruct (e ?= e')%Z; cbn; try reflexivity.
    fold (Pos.compare m m') (Pos.compare m' m). rewrite (Pos.compare_antisym m m'). now destruct (m ?= m')%positive.
  - rewrite (Z.compare_antisym e e').
    destruct (e ?= e')%Z; cbn; try reflexivity.
    fold (Pos.compare m m') (Pos.compare m' m). rewrite (Pos.compare_antisym m m'). now destruct (m ?= m')%positive.
Qed.
Lemma C49_value ai ex rg po d :
  represents po d -> (ai = true -> uts_f d = 0) -> within_supported ai ex rg = true ->
  gen_value [[mkRel ex OpNotWithin [RRange rg]]] po =
  Ok (let '(a, b) := uts_expr ex d in (a <? lower_val rg * b) && (upper_val rg * b <? a)).
Proof.
  intros R AI S. rewrite gen_value_rel by easy.
  rewrite (proj2 (rel_value_conjs (mkRel ex OpNotWithin [RRange rg]) (within_conj (mkRel ex OpNotWithin [RRange rg]) rg) po eq_refl)).
  unfold within_conj. cbn [rel_op rel_expr].
  unfold within_supported in S. apply andb_prop in S as [SM S]. destruct ex as [o m].
  cbn [ex_operand ex_modulus] in *.
  unfold uts_expr. cbn [ex_operand ex_modulus].
  pose proof (den_pos d) as DP.
  assert (INT : forall a x v, lower_val rg < 2 ^ 64 -> upper_val rg < 2 ^ 64 ->
    is_float x = false -> eval_int x po = Ok v -> v = a ->
    res_and (evals po [BCmpLN (LInt (lower_val rg)) CGt x; BCmpNL x CGt (LInt (upper_val rg))]) =
    Ok ((a <? lower_val rg * 1) && (upper_val rg * 1 <? a))).
  { intros a x v L H F E ->. rewrite (int_leb CGt x po _ _ a F E L H). cbn [cmp_int].
    now rewrite !N.mul_1_r. }
  destruct m as [m|].
  - assert (M : 0 < m) by (apply andb_prop in SM as [SM _]; now apply N.ltb_lt).
    assert (E : eval_int (NMod OI m) po = Ok (op_i po mod m)).
    { cbn. destruct (N.eqb_spec m 0); [lia|reflexivity]. }
    destruct o; try discriminate.
    + apply andb_prop in S as [S S2]. apply andb_prop in S as [S0 S1]. apply N.ltb_lt in S1, S2.
      cbn [within_num value_lit ex_operand ex_modulus uts_operand].
      rewrite (int_leb CGt (NMod OI m) po _ _ _ eq_refl E S1 S2). f_equal. cbn [cmp_int].
      rewrite (rp_i _ _ R). unfold uts_num. rewrite (AI S0), N.add_0_r, N.mul_mod_distr_r by lia.
      unfold uts_i. generalize (d_int d mod m). intro v. f_equal.
      * destruct (N.ltb_spec v (lower_val rg)), (N.ltb_spec (v * uts_den d) (lower_val rg * uts_den d)); auto; nia.
      * destruct (N.ltb_spec (upper_val rg) v), (N.ltb_spec (upper_val rg * uts_den d) (v * uts_den d)); auto; nia.
    + apply andb_prop in S as [S1 S2]. apply N.ltb_lt in S1, S2.
      cbn [within_num value_lit ex_operand ex_modulus uts_operand]. rewrite N.mul_1_r.
      apply (INT _ _ (op_i po mod m)); auto. now rewrite (rp_i _ _ R).
  - destruct o; cbn [within_num value_lit ex_operand ex_modulus uts_operand];
      apply andb_prop in S as [S1 S2]; apply N.ltb_lt in S1, S2.
    + cbn [evals List.map eval is_float lit_float rbind cmp_float].
      rewrite !SFltb_leb, (SFeqb_sym (f64_of_N (upper_val rg))).
      rewrite (rp_le _ _ R _ S1), (rp_ge _ _ R _ S2), (rp_eq _ _ R _ S1), (rp_eq _ _ R _ S2). cbn [res_and rbind].
      assert (Q1 : forall a b, (a <=? b) && negb (a =? b) = (a <? b)).
      { intros a b. destruct (N.leb_spec a b), (N.eqb_spec a b), (N.ltb_spec a b); auto; lia. }
      rewrite (N.eqb_sym (uts_num d) (upper_val rg * uts_den d)), !Q1.
      destruct (_ <? _), (_ <? _); reflexivity.
    + apply (INT _ _ (op_i po)); auto. apply (rp_i _ _ R).
    + apply (INT _ _ (op_v po)); auto. apply (rp_v _ _ R).
    + apply (INT _ _ (op_w po)); auto. apply (rp_w _ _ R).
    + apply (INT _ _ (op_f po)); auto. apply (rp_f _ _ R).
    + apply (INT _ _ (op_t po)); auto. apply (rp_t _ _ R).
Qed.
(** with the ends in order the test is never true, so it is the negation exactly
    for the numbers inside the interval *)
Lemma C49_partial_lemma ai ex rg po d :
  represents po d -> (ai = true -> uts_f d = 0) -> within_supported ai ex rg = true ->
  lower_val rg <= upper_val rg ->
  gen_value [[mkRel ex OpNotWithin [RRange rg]]] po = Ok false /\
  (gen_value [[mkRel ex OpNotWithin [RRange rg]]] po = Ok (uts_relation (mkRel ex OpNotWithin [RRange rg]) d) <->
   uts_relation (mkRel ex OpWithin [RRange rg]) d = true).
Proof.
  intros R AI S L.
  assert (E : gen_value [[mkRel ex OpNotWithin [RRange rg]]] po = Ok false).
  { rewrite (C49_value ai ex rg po d R AI S). destruct (uts_expr ex d) as [a b]. f_equal.
    destruct (N.ltb_spec a (lower_val rg * b)), (N.ltb_spec (upper_val rg * b) a); auto. exfalso. nia. }
  split; [exact E|]. rewrite E. unfold uts_relation. cbn [rel_op rel_expr rel_list].
  destruct (existsb _ _); cbn; split; congruence.
Qed.
