(** * Lemmas behind C121 *)
From Coq Require Import Reals Lra Lia ZifyBool ZifyN ZifyNat Floats.SpecFloat.
From Flocq Require Import Core IEEE754.BinarySingleNaN.
From Verif Require Import Base F64 LangId LangIdFacts GenRs GenPr Ast Spec SpecR Cldr Operands PluralRules Tables ApiProps OperandsProps RustExpr
  GenMeaning Represents Conformance CodeSpec InputSpec CodeShipped ListProps RepeatSpec RepeatProps Order ViewSpec ViewProps BehaviourSpec PartSpec PartProps
  OperandsFacts F64Facts FloatProps FloatConf LengthProps SpellingProps WrongSpec WrongProps LongSpec.
Open Scope N_scope.

(** ** The code when [n] may be another number than the digits say

    [q] is the integer equal to [n], if there is one. *)
Definition hit (q : option N) (k : N) : bool := match q with Some n => n =? k | None => false end.
Definition z_value (q : option N) (e : expression) (k : N) (s : triple) : bool :=
  if plain_n e then hit q k else CodeSpec.reduced (ex_modulus e) (t_operand (ex_operand e) s) =? k.
Definition z_code (q : option N) (s : triple) (r : relation) : bool :=
  let e := rel_expr r in
  match rel_op r with
  | OpIn | OpIs | OpEQ =>
      existsb (fun it => match it with RValue k => z_value q e k s | RRange p => t_range e p s && t_no_fraction e s end) (rel_list r)
  | _ => forallb (fun it => match it with RValue k => negb (z_value q e k s) | RRange p => negb (t_range e p s) && t_no_fraction e s end) (rel_list r)
  end.
Definition own (s : triple) : option N := if snd s =? 0 then Some (fst (fst s)) else None.
Lemma t_z s r : t_code s r = z_code (own s) s r.
Proof.
  assert (E : forall k, t_value (rel_expr r) k s = z_value (own s) (rel_expr r) k s).
  { intro k. unfold t_value, z_value, own, hit. destruct (plain_n _); [|reflexivity]. destruct (snd s =? 0); [now rewrite Bool.andb_true_r|now rewrite Bool.andb_false_r]. }
  unfold t_code, z_code.
  assert (E1 : existsb (fun it => match it with RValue k => t_value (rel_expr r) k s | RRange q => t_range (rel_expr r) q s && t_no_fraction (rel_expr r) s end) (rel_list r) =
    existsb (fun it => match it with RValue k => z_value (own s) (rel_expr r) k s | RRange p => t_range (rel_expr r) p s && t_no_fraction (rel_expr r) s end) (rel_list r)).
  { apply existsb_same. intros [q|k] _; [reflexivity|apply E]. }
  assert (E2 : forallb (fun it => match it with RValue k => negb (t_value (rel_expr r) k s) | RRange q => negb (t_range (rel_expr r) q s) && t_no_fraction (rel_expr r) s end) (rel_list r) =
    forallb (fun it => match it with RValue k => negb (z_value (own s) (rel_expr r) k s) | RRange p => negb (t_range (rel_expr r) p s) && t_no_fraction (rel_expr r) s end) (rel_list r)).
  { apply forallb_same. intros [q|k] _; [reflexivity|now rewrite E]. }
  cbv zeta. destruct (rel_op r); congruence.
Qed.
(** what is needed of the operands *)
Record fields (po : operands) (d : decimal) (q : option N) (B : N) : Prop := {
  fl_i : op_i po = uts_i d; fl_v : op_v po = uts_v d; fl_f : op_f po = uts_f d; fl_t : op_t po = uts_t d;
  fl_n : forall k, k < B -> SFeqb (op_n po) (f64_of_N k) = hit q k }.
Lemma z_code_ok B P V F Q r d po q : relation_viewed B P V F Q r -> fields po d q B -> code_relation po r = z_code q (triple_of d) r.
Proof.
  intros (W & NW & R) Rp. destruct r as [[o m] op l]. cbn [rel_expr rel_list rel_op ex_operand ex_modulus] in *.
  unfold code_relation, z_code. cbn [rel_expr rel_list rel_op].
  assert (NF : no_fraction (mkExpr o m) po = t_no_fraction (mkExpr o m) (triple_of d)) by (unfold no_fraction, t_no_fraction; now rewrite (fl_f _ _ _ _ Rp)).
  assert (IT : forall it, In it l -> match it with
    | RValue k => code_value (mkExpr o m) k po = z_value q (mkExpr o m) k (triple_of d)
    | RRange p => code_range (mkExpr o m) p po = t_range (mkExpr o m) p (triple_of d) end).
  { intros it I. unfold relation_repeats in R. cbn [rel_expr rel_list ex_operand ex_modulus] in R.
    destruct it as [p|k]; unfold code_value, code_range, z_value, t_range, plain_n, on_n, code_operand, triple_of; cbn [ex_operand ex_modulus t_operand fst snd];
    rewrite ?(fl_i _ _ _ _ Rp), ?(fl_v _ _ _ _ Rp), ?(fl_f _ _ _ _ Rp), ?(fl_t _ _ _ _ Rp); destruct o, m as [m|]; try reflexivity; try easy.
    - rewrite Forall_forall in R. specialize (R _ I). discriminate R.
    - rewrite Forall_forall in R. specialize (R _ I). cbn in R. now apply (fl_n _ _ _ _ Rp).
    - rewrite Forall_forall in R. specialize (R _ I). injection R as ->. cbn [CodeSpec.reduced]. apply t_zero. }
  assert (E1 : existsb (code_item (mkExpr o m) po) l =
    existsb (fun it => match it with RValue k => z_value q (mkExpr o m) k (triple_of d) | RRange p => t_range (mkExpr o m) p (triple_of d) && t_no_fraction (mkExpr o m) (triple_of d) end) l).
  { apply existsb_same. intros it I. specialize (IT it I). destruct it; cbn [code_item]; now rewrite IT, ?NF. }
  assert (E2 : forallb (code_not_item (mkExpr o m) po) l =
    forallb (fun it => match it with RValue k => negb (z_value q (mkExpr o m) k (triple_of d)) | RRange p => negb (t_range (mkExpr o m) p (triple_of d)) && t_no_fraction (mkExpr o m) (triple_of d) end) l).
  { apply forallb_same. intros it I. specialize (IT it I). destruct it; cbn [code_not_item]; now rewrite IT, ?NF. }
  destruct op; congruence.
Qed.
Lemma z_code_view B P V F Q q s r : relation_viewed B P V F Q r -> P <> 0 -> Q <> 0 -> F <> 0 -> z_code q (t_view B P V F Q s) r = z_code q s r.
Proof.
  intros (W & NW & R) P0 Q0 F0. destruct r as [[o m] op l], s as [[i v] f]. cbn [rel_expr rel_list rel_op ex_operand ex_modulus t_view] in *.
  unfold z_code. cbn [rel_expr rel_list rel_op].
  assert (NF : t_no_fraction (mkExpr o m) (place B P i, N.min v V, place F Q f) = t_no_fraction (mkExpr o m) (i, v, f)).
  { unfold t_no_fraction. cbn [snd]. now rewrite place_zero. }
  pose proof (place_near B P i P0) as Ni. pose proof (place_near F Q f Q0) as Nf. pose proof (place_zero F Q f Q0 F0) as Zf.
  assert (IT : forall it, In it l -> match it with
    | RValue k => z_value q (mkExpr o m) k (place B P i, N.min v V, place F Q f) = z_value q (mkExpr o m) k (i, v, f)
    | RRange p => t_range (mkExpr o m) p (place B P i, N.min v V, place F Q f) = t_range (mkExpr o m) p (i, v, f) end).
  { intros it I. unfold relation_repeats in R. cbn [rel_expr rel_list ex_operand ex_modulus] in R.
    destruct it as [p|k]; unfold z_value, t_range, plain_n, on_n, CodeSpec.between; cbn [ex_operand ex_modulus fst snd];
    destruct o, m as [m|]; cbn [t_operand CodeSpec.reduced] in *; try easy.
    all: try (rewrite place_mod; [reflexivity|tauto|assumption]).
    all: try (destruct R as [D R]; try specialize (R eq_refl)).
    all: try (rewrite Forall_forall in R; specialize (R _ I); cbn in R; lia).
    all: rewrite Forall_forall in R; specialize (R _ I); try discriminate R; injection R as ->; exact Zf. }
  assert (E1 : existsb (fun it => match it with RValue k => z_value q (mkExpr o m) k (place B P i, N.min v V, place F Q f)
      | RRange p => t_range (mkExpr o m) p (place B P i, N.min v V, place F Q f) && t_no_fraction (mkExpr o m) (place B P i, N.min v V, place F Q f) end) l =
    existsb (fun it => match it with RValue k => z_value q (mkExpr o m) k (i, v, f) | RRange p => t_range (mkExpr o m) p (i, v, f) && t_no_fraction (mkExpr o m) (i, v, f) end) l).
  { apply existsb_same. intros it I. specialize (IT it I). destruct it; now rewrite IT, ?NF. }
  assert (E2 : forallb (fun it => match it with RValue k => negb (z_value q (mkExpr o m) k (place B P i, N.min v V, place F Q f))
      | RRange p => negb (t_range (mkExpr o m) p (place B P i, N.min v V, place F Q f)) && t_no_fraction (mkExpr o m) (place B P i, N.min v V, place F Q f) end) l =
    forallb (fun it => match it with RValue k => negb (z_value q (mkExpr o m) k (i, v, f)) | RRange p => negb (t_range (mkExpr o m) p (i, v, f)) && t_no_fraction (mkExpr o m) (i, v, f) end) l).
  { apply forallb_same. intros it I. specialize (IT it I). destruct it; now rewrite IT, ?NF. }
  destruct op; congruence.
Qed.
(** only the integers compared with matter *)
Definition compared_in (r : relation) : list N :=
  if plain_n (rel_expr r) then flat_map (fun it => match it with RValue k => [k] | RRange _ => [] end) (rel_list r) else [].
Lemma z_code_hit q q' s r : (forall k, In k (compared_in r) -> hit q k = hit q' k) -> z_code q s r = z_code q' s r.
Proof.
  intro H.
  assert (E : forall k, In (RValue k) (rel_list r) -> z_value q (rel_expr r) k s = z_value q' (rel_expr r) k s).
  { intros k I. unfold z_value. unfold compared_in in H. destruct (plain_n (rel_expr r)); [|reflexivity]. apply H.
    apply in_flat_map. exists (RValue k). split; [exact I|now left]. }
  unfold z_code. cbv zeta.
  assert (E1 : existsb (fun it => match it with RValue k => z_value q (rel_expr r) k s | RRange p => t_range (rel_expr r) p s && t_no_fraction (rel_expr r) s end) (rel_list r) =
    existsb (fun it => match it with RValue k => z_value q' (rel_expr r) k s | RRange p => t_range (rel_expr r) p s && t_no_fraction (rel_expr r) s end) (rel_list r)).
  { apply existsb_same. intros [p|k] I; [reflexivity|now apply E]. }
  assert (E2 : forallb (fun it => match it with RValue k => negb (z_value q (rel_expr r) k s) | RRange p => negb (t_range (rel_expr r) p s) && t_no_fraction (rel_expr r) s end) (rel_list r) =
    forallb (fun it => match it with RValue k => negb (z_value q' (rel_expr r) k s) | RRange p => negb (t_range (rel_expr r) p s) && t_no_fraction (rel_expr r) s end) (rel_list r)).
  { apply forallb_same. intros [p|k] I; [reflexivity|now rewrite E]. }
  destruct (rel_op r); congruence.
Qed.

(** ** Categories *)
Definition z_select (q : option N) (rules : list (category * condition)) (s : triple) : category :=
  match List.find (fun cc => match fst cc with OTHER => false | _ => t_condition (z_code q) s (snd cc) end) rules with
  | Some (c, _) => c
  | None => OTHER
  end.
Definition compared (rules : list (category * condition)) : list N := flat_map (fun rule => flat_map (flat_map compared_in) (snd rule)) rules.
Lemma find_alike (g : condition -> bool) (h : condition -> bool) (rules : list (category * condition)) :
  Forall (fun rule => g (snd rule) = h (snd rule)) rules ->
  List.find (fun cc => match fst cc with OTHER => false | _ => g (snd cc) end) rules = List.find (fun cc => match fst cc with OTHER => false | _ => h (snd cc) end) rules.
Proof. induction 1 as [|[c k] rules E _ IH]; [reflexivity|]. cbn [List.find fst snd] in *. now rewrite E, IH. Qed.
Lemma z_select_ok B P V F Q rules d po q : viewed B P V F Q rules -> fields po d q B -> code_select rules po = z_select q rules (triple_of d).
Proof.
  intros Vw Rp. unfold code_select, z_select.
  pose proof (viewed_relations _ _ _ _ _ _ _ Vw (fun r K => z_code_ok B P V F Q r d po q K Rp)) as H.
  rewrite (find_alike (fun c => code_condition c po) (t_condition (z_code q) (triple_of d))); [reflexivity|].
  revert H. apply Forall_impl. intros rule H. apply t_condition_same. exact H.
Qed.
Lemma z_select_view B P V F Q q rules s : viewed B P V F Q rules -> P <> 0 -> Q <> 0 -> F <> 0 -> z_select q rules (t_view B P V F Q s) = z_select q rules s.
Proof.
  intros Vw P0 Q0 F0. unfold z_select.
  pose proof (viewed_relations _ _ _ _ _ _ _ Vw (fun r K => z_code_view B P V F Q q s r K P0 Q0 F0)) as H.
  rewrite (find_alike (t_condition (z_code q) (t_view B P V F Q s)) (t_condition (z_code q) s)); [reflexivity|].
  revert H. apply Forall_impl. intros rule H. apply t_condition_same. exact H.
Qed.
Lemma z_select_hit q q' rules s : (forall k, In k (compared rules) -> hit q k = hit q' k) -> z_select q rules s = z_select q' rules s.
Proof.
  intro H. unfold z_select. rewrite (find_alike (t_condition (z_code q) s) (t_condition (z_code q') s)); [reflexivity|].
  apply Forall_forall. intros rule I. apply t_condition_same. apply Forall_forall. intros a J. apply Forall_forall. intros r K.
  apply z_code_hit. intros k L. apply H. unfold compared. apply in_flat_map. exists rule. split; [exact I|].
  apply in_flat_map. exists a. split; [exact J|]. apply in_flat_map. now exists r.
Qed.
Lemma t_select_z rules s : t_select rules s = z_select (own s) rules s.
Proof.
  unfold t_select, z_select. rewrite (find_alike (t_condition t_code s) (t_condition (z_code (own s)) s)); [reflexivity|].
  apply Forall_forall. intros rule I. apply t_condition_same. apply Forall_forall. intros a J. apply Forall_forall. intros r K. apply t_z.
Qed.
(** what UTS #35 says *)
Definition t_selectb (rules : list (category * condition)) (s : triple) (c : category) : bool :=
  if cat_eqb c OTHER then forallb (fun rule => cat_eqb (fst rule) OTHER || negb (t_condition t_uts s (snd rule))) rules
  else existsb (fun rule => cat_eqb (fst rule) c && t_condition t_uts s (snd rule)) rules.
Lemma t_selectb_ok B P V F Q rules d c : viewed B P V F Q rules -> P <> 0 -> Q <> 0 -> proper d -> cldr_selectb rules d c = t_selectb rules (triple_of d) c.
Proof.
  intros Vw P0 Q0 Pd. pose proof (viewed_relations _ _ _ _ _ _ _ Vw (fun r K => t_uts_ok B P V F Q r d K P0 Q0 Pd)) as H.
  assert (E : Forall (fun rule : category * condition => uts_condition (snd rule) d = t_condition t_uts (triple_of d) (snd rule)) rules).
  { revert H. apply Forall_impl. intros rule H. apply (t_condition_same (fun r => uts_relation r d)). exact H. }
  rewrite Forall_forall in E. unfold cldr_selectb, t_selectb. destruct (cat_eqb c OTHER).
  - apply forallb_same. intros [c' k] I. specialize (E _ I). cbn [fst snd] in *. now rewrite E.
  - apply existsb_same. intros [c' k] I. specialize (E _ I). cbn [fst snd] in *. now rewrite E.
Qed.
Lemma t_selectb_view B P V F Q rules s c : viewed B P V F Q rules -> P <> 0 -> Q <> 0 -> F <> 0 -> t_selectb rules (t_view B P V F Q s) c = t_selectb rules s c.
Proof.
  intros Vw P0 Q0 F0. pose proof (viewed_relations _ _ _ _ _ _ _ Vw (fun r K => t_uts_view B P V F Q s r K P0 Q0 F0)) as H.
  assert (E : Forall (fun rule : category * condition => t_condition t_uts (t_view B P V F Q s) (snd rule) = t_condition t_uts s (snd rule)) rules).
  { revert H. apply Forall_impl. intros rule H. apply t_condition_same. exact H. }
  rewrite Forall_forall in E. unfold t_selectb. destruct (cat_eqb c OTHER).
  - apply forallb_same. intros [c' k] I. specialize (E _ I). cbn [fst snd] in *. now rewrite E.
  - apply existsb_same. intros [c' k] I. specialize (E _ I). cbn [fst snd] in *. now rewrite E.
Qed.

(** ** Numbers whose [n] is an integer only if they are *)
Lemma place_idem B P x : P <> 0 -> place B P (place B P x) = place B P x.
Proof.
  intro P0. unfold place. destruct (N.ltb_spec x B) as [L|L]; [apply N.ltb_lt in L; now rewrite L|].
  destruct (N.ltb_spec (B + (x - B) mod P) B); [lia|]. f_equal. replace (B + (x - B) mod P - B) with ((x - B) mod P) by lia. now rewrite N.mod_mod.
Qed.
Lemma stand_in d : proper d -> exists d', proper d' /\ small d' /\ t_view 20001 1000000 3 2 100 (triple_of d') = t_view 20001 1000000 3 2 100 (triple_of d).
Proof.
  intro P. pose proof (place_lt 20001 1000000 (uts_i d) ltac:(discriminate)) as LI. pose proof (place_lt 2 100 (uts_f d) ltac:(discriminate)) as LF.
  set (i := place 20001 1000000 (uts_i d)) in *. set (g := place 2 100 (uts_f d)) in *.
  destruct (N.le_gt_cases (uts_v d) 3) as [L|G].
  - exists (mkDecimal i (d_frac d)). split; [exact P|]. split.
    + unfold small. unfold uts_num, uts_den, uts_v, uts_f in *. cbn [d_int d_frac]. split; [|lia].
      pose proof (frac_value_lt _ P) as FL. pose proof (N.pow_le_mono_r 10 _ 3 ltac:(discriminate) L) as TL. change (10 ^ 3) with 1000 in TL. nia.
    + unfold triple_of, t_view, uts_i, uts_v, uts_f. cbn [d_int d_frac]. unfold i. now rewrite place_idem by discriminate.
  - exists (mkDecimal i [0; g / 100; (g / 10) mod 10; g mod 10]). split; [|split].
    + unfold proper. cbn [d_frac]. repeat constructor; try (apply N.mod_lt; discriminate). apply N.div_lt_upper_bound; lia.
    + unfold small, uts_num, uts_den, uts_v, uts_f. cbn [d_int d_frac List.length frac_value].
      pose proof (N.mod_lt g 10 ltac:(discriminate)). pose proof (N.mod_lt (g / 10) 10 ltac:(discriminate)).
      assert (g / 100 < 10) by (apply N.div_lt_upper_bound; lia). change (N.of_nat 4) with 4. change (N.of_nat 3) with 3. change (N.of_nat 2) with 2. change (N.of_nat 1) with 1. change (N.of_nat 0) with 0.
      change (10 ^ 4) with 10000. change (10 ^ 3) with 1000. change (10 ^ 2) with 100. change (10 ^ 1) with 10. change (10 ^ 0) with 1. change (2 ^ 53) with 9007199254740992. lia.
    + unfold triple_of, t_view, uts_i, uts_v. cbn [d_int d_frac List.length].
      assert (E : uts_f (mkDecimal i [0; g / 100; (g / 10) mod 10; g mod 10]) = g).
      { unfold uts_f. cbn [d_frac frac_value List.length]. change (N.of_nat 3) with 3. change (N.of_nat 2) with 2. change (N.of_nat 1) with 1. change (N.of_nat 0) with 0.
        change (10 ^ 3) with 1000. change (10 ^ 2) with 100. change (10 ^ 1) with 10. change (10 ^ 0) with 1.
        pose proof (N.div_mod g 10 ltac:(discriminate)). pose proof (N.div_mod (g / 10) 10 ltac:(discriminate)) as H2.
        rewrite N.div_div in H2 by discriminate. change (10 * 10) with 100 in H2. lia. }
      rewrite E. unfold i, g. rewrite !place_idem by discriminate. fold (uts_i d). unfold uts_v in G. f_equal. f_equal. unfold uts_v. lia.
Qed.
Lemma fields_weaken po d q B B' : B' <= B -> fields po d q B -> fields po d q B'.
Proof. intros L []. constructor; auto. intros k K. apply fl_n0. lia. Qed.
Lemma represents_fields po d : represents po d -> proper d -> fields po d (own (triple_of d)) (2 ^ 53).
Proof.
  intros R P. destruct R as [Ri Rv Rw Rf Rt Re Rg Rl] eqn:ER. constructor; auto. intros k K. rewrite (n_eq_represents po d k R P K).
  unfold own, triple_of, hit. cbn [fst snd]. now destruct (uts_f d =? 0).
Qed.
Lemma L20001 : 20001 <= 2 ^ 53. Proof. vm_compute. discriminate. Qed.
Lemma exact_fields how id t pr w x po d :
  create how id t = Ok pr -> to_operands w x = Ok po -> fields po d (own (triple_of d)) (2 ^ 53) -> proper d ->
  exists rules c, In (id, rules) (cldr t) /\ select w pr x = Ok c /\
    (cldr_select rules d c <-> wrong_number t id d = false).
Proof.
  intros C T R P. unfold wrong_number.
  destruct (List.find (fun e => langid_eqb id (fst e)) (wrong_table t)) as [[l wrong]|] eqn:F.
  - apply List.find_some in F as [I E]. cbn in E. apply langid_eqb_eq in E. subst l.
    destruct (table_settled t id wrong I) as (b & rules & B & K & X & Z).
    apply find_body_in in B. apply C22_lemma in C as [_ U]. specialize (U b B). subst b.
    destruct (Z (uts_i d) (uts_v d) (uts_f d) (uts_v_0 d)) as (c & Y & S).
    exists rules, c. split; [now apply find_rules_in|]. split.
    + unfold select. rewrite T. refine (y_arms_ok po d (fl_i _ _ _ _ R) (fl_v _ _ _ _ R) (fl_f _ _ _ _ R) _ _ _ _ Y).
      intros k K'. rewrite (fl_n _ _ _ _ R k K'). unfold own, triple_of, hit. cbn [fst snd]. now destruct (uts_f d =? 0).
    + rewrite <- cldr_selectb_iff, (x_select_ok _ _ _ P X), S. destruct (wrong _ _ _); split; easy.
  - destruct (stand_in d P) as (d' & P' & S' & V). destruct (proper_numeral d' P') as [s' Nu'].
    destruct (numeral_represents s' d' Nu' S') as (po' & E' & R').
    destruct (wrong_exact how id t pr w (InStr s') po' d' C E' R' P') as (rules & c & I & Se & H). unfold wrong_number in H. rewrite F in H.
    destruct (C93_lemma how id t pr C) as (rs & _ & U & H93). specialize (U rules I). subst rs.
    pose proof (C118_six_lemma t id rules I) as Vw. exists rules, c. split; [exact I|]. split.
    + rewrite (H93 w x po T). rewrite (H93 w (InStr s') po' E') in Se. rewrite <- Se. f_equal.
      rewrite (z_select_ok _ _ _ _ _ rules d po _ Vw (fields_weaken _ _ _ _ _ L20001 R)).
      rewrite (z_select_ok _ _ _ _ _ rules d' po' _ Vw (fields_weaken _ _ _ _ _ L20001 (represents_fields po' d' R' P'))).
      rewrite <- !t_select_z. rewrite <- (t_select_view _ _ _ _ _ rules (triple_of d) Vw) by discriminate.
      rewrite <- (t_select_view _ _ _ _ _ rules (triple_of d') Vw) by discriminate. now rewrite V.
    + rewrite <- H, <- !cldr_selectb_iff.
      rewrite (t_selectb_ok _ _ _ _ _ rules d c Vw) by (auto; discriminate). rewrite (t_selectb_ok _ _ _ _ _ rules d' c Vw) by (auto; discriminate).
      rewrite <- (t_selectb_view _ _ _ _ _ rules (triple_of d) c Vw) by discriminate.
      rewrite <- (t_selectb_view _ _ _ _ _ rules (triple_of d') c Vw) by discriminate. now rewrite V.
Qed.

(** ** Numbers rounded to an integer *)
Definition entries (t : pr_type) (id : langid) : list (string * list N * (N -> N -> bool)) :=
  List.filter (fun e => BehaviourSpec.listed id (fst (fst e))) (rounding_table t).
Lemma find_filter {A} (p q : A -> bool) l : List.find (fun x => p x && q x) l = List.find q (List.filter p l).
Proof.
  induction l as [|x l IH]; [reflexivity|]. cbn [List.find List.filter]. destruct (p x); cbn [andb]; [|exact IH].
  cbn [List.find]. destruct (q x); [reflexivity|exact IH].
Qed.
Lemma rounding_entries t id k i f : rounding t id k i f =
  match List.find (fun e => among k (snd (fst e))) (entries t id) with Some (_, _, wrong) => Some (wrong i f) | None => None end.
Proof. unfold rounding, entries. now rewrite find_filter. Qed.
Definition rounding_ok (t : pr_type) (e : langid * list (category * condition)) : bool :=
  let '(id, rules) := e in
  let ks := compared rules in
  let tab := entries t id in
  forallb (fun k =>
    match List.find (fun e => among k (snd (fst e))) tab with
    | Some (_, _, wrong) =>
        forallb (fun i => forallb (fun v => forallb (fun f =>
          Bool.eqb (wrong i f) (negb (t_selectb rules (i, v, f) (z_select (Some k) rules (i, v, f)))))
          (List.map N.succ (upto 101))) [1; 2; 3]) (if k =? 0 then [0] else [k - 1; k])
    | None => false
    end) ks &&
  forallb (fun e => forallb (fun k => among k ks) (snd (fst e))) tab.
Lemma rounding_check t : forallb (rounding_ok t) (cldr t) = true.
Proof. destruct t; vm_compute; reflexivity. Qed.

Lemma in_among x l : among x l = true <-> In x l.
Proof. unfold among. rewrite existsb_exists. split; [intros (y & I & E); apply N.eqb_eq in E; now subst|intro I; exists x; split; [exact I|apply N.eqb_refl]]. Qed.
Lemma rounding_place t id k i f : rounding t id k i (place 2 100 f) = rounding t id k i f.
Proof.
  assert (O : (place 2 100 f =? 1) = (f =? 1)) by (destruct (place_near 2 100 f); [discriminate|lia|lia]).
  assert (H : Forall (fun e : string * list N * (N -> N -> bool) => snd e i (place 2 100 f) = snd e i f) (rounding_table t)).
  { destruct t; cbn [rounding_table]; repeat constructor; cbn [snd]. now rewrite O. }
  unfold rounding. destruct (List.find _ (rounding_table t)) as [[[n l] b]|] eqn:E; [|reflexivity].
  apply List.find_some in E as [E _]. rewrite Forall_forall in H. specialize (H _ E). cbn [snd] in H. now rewrite H.
Qed.
Lemma compared_small t : forallb (fun e => forallb (fun k => k <? 20001) (compared (snd e))) (cldr t) = true.
Proof. destruct t; vm_compute; reflexivity. Qed.
Lemma rounded_lemma t id rules d po k : In (id, rules) (cldr t) -> proper d -> uts_f d <> 0 -> fields po d (Some k) 20001 ->
  In k (compared rules) -> uts_i d = k \/ uts_i d + 1 = k ->
  (cldr_select rules d (code_select rules po) <-> rounded_wrong t id k d = false).
Proof.
  intros I P Z Fl K Ui. pose proof (C118_six_lemma t id rules I) as Vw.
  pose proof (rounding_check t) as H. rewrite forallb_forall in H. specialize (H _ I). unfold rounding_ok in H. cbv zeta in H.
  apply andb_true_iff in H as [H _]. rewrite forallb_forall in H. specialize (H k K).
  pose proof (rounding_entries t id k (uts_i d) (place 2 100 (uts_f d))) as RE. rewrite rounding_place in RE.
  unfold rounded_wrong. destruct (List.find _ (entries t id)) as [[[n l] wrong]|]; [|discriminate H]. rewrite RE.
  rewrite forallb_forall in H. specialize (H (uts_i d)).
  assert (J : In (uts_i d) (if k =? 0 then [0] else [k - 1; k])).
  { destruct (N.eqb_spec k 0) as [E|E]; [left; lia|]. destruct Ui as [E'|E']; [right; left; lia|left; lia]. }
  specialize (H J). rewrite forallb_forall in H.
  assert (V1 : uts_v d <> 0) by (intro V0; apply Z; unfold uts_v in V0; unfold uts_f; destruct (d_frac d); [reflexivity|discriminate V0]).
  assert (J2 : In (N.min (uts_v d) 3) [1; 2; 3]) by (cbn [In]; lia). specialize (H _ J2). rewrite forallb_forall in H.
  assert (J3 : In (place 2 100 (uts_f d)) (List.map N.succ (upto 101))).
  { pose proof (place_lt 2 100 (uts_f d) ltac:(discriminate)) as LF. pose proof (place_zero 2 100 (uts_f d) ltac:(discriminate) ltac:(discriminate)) as ZF.
    apply in_map_iff. exists (place 2 100 (uts_f d) - 1). split; [lia|]. apply in_upto. lia. }
  specialize (H _ J3). apply Bool.eqb_prop in H. rewrite H.
  rewrite (z_select_ok _ _ _ _ _ rules d po _ Vw Fl).
  rewrite <- cldr_selectb_iff, (t_selectb_ok _ _ _ _ _ rules d _ Vw) by (auto; discriminate).
  rewrite <- (z_select_view _ _ _ _ _ (Some k) rules (triple_of d) Vw) by discriminate.
  rewrite <- (t_selectb_view _ _ _ _ _ rules (triple_of d) _ Vw) by discriminate.
  assert (PL : place 20001 1000000 (uts_i d) = uts_i d).
  { unfold place. destruct (N.ltb_spec (uts_i d) 20001) as [L|L]; [reflexivity|].
    exfalso. clear - I K Ui L. pose proof (compared_small t) as S. rewrite forallb_forall in S. specialize (S _ I). cbn [snd] in S. rewrite forallb_forall in S. specialize (S k K). lia. }
  unfold triple_of, t_view. rewrite PL. destruct (t_selectb _ _ _); cbn [negb]; split; easy.
Qed.

(** ** What rounding does *)
Lemma integer_part_near x i k : (IZR (Z.of_N i) <= x < IZR (Z.of_N i) + 1)%R -> round radix2 fexp64 ZnearestE x = IZR (Z.of_N k) -> k < 2 ^ 53 -> i = k \/ i + 1 = k.
Proof.
  intros [A B] R K.
  assert (M : forall a b, (a <= b)%R -> (round radix2 fexp64 ZnearestE a <= round radix2 fexp64 ZnearestE b)%R) by (intros; apply round_le; auto with typeclass_instances).
  assert (I : i < 2 ^ 53).
  { apply N.nle_gt. intro L. assert (IZR (2 ^ 53) <= x)%R by (apply Rle_trans with (IZR (Z.of_N i)); [apply IZR_le; lia|exact A]).
    apply M in H. change (round radix2 fexp64 ZnearestE (IZR (2 ^ 53))) with (rnd64 (IZR (2 ^ 53))) in H. rewrite rnd64_int in H by lia. rewrite R in H. apply le_IZR in H. lia. }
  assert (L : (IZR (Z.of_N i) <= IZR (Z.of_N k))%R) by (rewrite <- R, <- (rnd64_int (Z.of_N i)) by lia; now apply M).
  assert (U : (IZR (Z.of_N k) <= IZR (Z.of_N i + 1))%R).
  { rewrite <- R, <- (rnd64_int (Z.of_N i + 1)) by lia. apply M. rewrite plus_IZR. lra. }
  apply le_IZR in L. apply le_IZR in U. lia.
Qed.
Lemma dec_value d : exact_value (uts_num d) (List.length (d_frac d)) = dec_real (uts_num d) (- Z.of_N (uts_v d)).
Proof. rewrite exact_value_real. unfold uts_v. now rewrite nat_N_Z. Qed.
Lemma eqb_integer y k j : valid_binary 53 1024 y = true -> is_finite_SF y = true -> SF2R radix2 y = IZR (Z.of_N k) -> j < 2 ^ 53 -> SFeqb y (f64_of_N j) = (k =? j).
Proof.
  intros V F E J. destruct (f64_of_N_exact j) as (A & B & _); [lia|]. rewrite SFeqb_correct by (auto using valid_f64_of_N). rewrite A, E.
  destruct (N.eqb_spec k j) as [->|N]; [apply Req_bool_true; reflexivity|]. apply Req_bool_false. intro Q. apply eq_IZR in Q. lia.
Qed.
Lemma n_fields s d po : numeral s d -> operands_from_str s = Ok po -> keeps_integer d ->
  (forall k, rounded_to d k -> fields po d (Some k) (2 ^ 53) /\ (k < 2 ^ 53 -> uts_i d = k \/ uts_i d + 1 = k)) /\
  ((forall k, ~ rounded_to d k) -> fields po d (own (triple_of d)) (2 ^ 53)).
Proof.
  intros Nu E K. pose proof (numeral_proper _ _ Nu) as P.
  destruct (numeral_fields s d po Nu E) as (On & _ & Ov & _ & Of & Ot). destruct (SpellingProps.numeral_operands s d po Nu E K) as (_ & Oi & _).
  assert (Va : valid_binary 53 1024 (op_n po) = true) by (rewrite On; apply (valid_dec_to_float 53 1024 _ _)).
  assert (Ne : nearest64 (exact_value (uts_num d) (List.length (d_frac d))) (op_n po)) by (rewrite dec_value, On; apply dec64_nearest').
  assert (Fin : forall k, SFeqb (op_n po) (f64_of_N k) = true -> k < 2 ^ 53 -> is_finite_SF (op_n po) = true /\ SF2R radix2 (op_n po) = IZR (Z.of_N k)).
  { intros k Q L. destruct (f64_of_N_exact k) as (A & B & _); [lia|].
    assert (FN : is_finite_SF (op_n po) = true) by (destruct (op_n po), (f64_of_N k); try reflexivity; try discriminate B; destruct s0; discriminate Q).
    split; [exact FN|]. rewrite SFeqb_correct in Q by (auto using valid_f64_of_N). rewrite A in Q. revert Q. case Req_bool_spec; [auto|discriminate]. }
  split.
  - intros k (Z & y & Ny & Fy & Ry). assert (y = op_n po) by exact (nearest64_unique _ _ _ Ny Ne). subst y. split.
    + constructor; auto. intros j J. cbn [hit]. now apply eqb_integer.
    + intro L. apply (integer_part_near (exact_value (uts_num d) (List.length (d_frac d)))); [|rewrite <- Ry|exact L].
      * rewrite dec_value, dec_real_parts. change (d_int d) with (uts_i d). pose proof (den_pos d) as Dp. pose proof (frac_value_lt _ P) as FL. fold (uts_f d) in FL. fold (uts_v d) in FL. fold (uts_den d) in FL.
        assert (0 < IZR (Z.of_N (uts_den d)))%R by (apply IZR_lt; lia). assert (0 <= IZR (Z.of_N (uts_f d)))%R by (apply IZR_le; lia).
        assert (IZR (Z.of_N (uts_f d)) < IZR (Z.of_N (uts_den d)))%R by (apply IZR_lt; lia).
        assert (0 <= IZR (Z.of_N (uts_f d)) / IZR (Z.of_N (uts_den d)))%R by (apply Rmult_le_pos; [lra|apply Rlt_le, Rinv_0_lt_compat; lra]).
        assert (IZR (Z.of_N (uts_f d)) / IZR (Z.of_N (uts_den d)) < 1)%R by (apply (Rmult_lt_reg_r (IZR (Z.of_N (uts_den d)))); [lra|]; unfold Rdiv; rewrite Rmult_assoc, Rinv_l, Rmult_1_r, Rmult_1_l by lra; lra).
        lra.
      * destruct Ne as [(_ & _ & _ & S & _)|[_ S]]; [now rewrite S|rewrite S in Fy; discriminate Fy].
  - intro NR. constructor; auto. intros k L. unfold own, triple_of. cbn [fst snd]. destruct (N.eqb_spec (uts_f d) 0) as [Z|Z]; cbn [hit].
    + destruct (N.lt_ge_cases (uts_i d) (2 ^ 53)) as [Li|Li].
      * apply eqb_integer; auto.
        -- destruct Ne as [(_ & S & _)|[S _]]; [exact S|exfalso]. revert S. apply Rlt_not_le. rewrite dec_value, dec_real_parts, Z.
           unfold Rdiv. rewrite Rmult_0_l, Rplus_0_r. change (FLT_exp (-1074) 53) with fexp64. change (round radix2 fexp64 ZnearestE (IZR (Z.of_N (d_int d)))) with (rnd64 (IZR (Z.of_N (d_int d)))).
           unfold uts_i in Li. rewrite rnd64_int by lia. apply Rlt_trans with (IZR (2 ^ 53)); [apply IZR_lt; lia|]. change (IZR (2 ^ 53)) with (bpow radix2 53). now apply bpow_lt.
        -- destruct Ne as [(_ & _ & _ & S & _)|[S _]].
           ++ rewrite S, dec_value, dec_real_parts, Z. unfold Rdiv. rewrite Rmult_0_l, Rplus_0_r.
              change (round radix2 (FLT_exp (-1074) 53) ZnearestE (IZR (Z.of_N (d_int d)))) with (rnd64 (IZR (Z.of_N (d_int d)))). unfold uts_i in *. apply rnd64_int. lia.
           ++ exfalso. revert S. apply Rlt_not_le. rewrite dec_value, dec_real_parts, Z.
              unfold Rdiv. rewrite Rmult_0_l, Rplus_0_r. change (round radix2 (FLT_exp (-1074) 53) ZnearestE (IZR (Z.of_N (d_int d)))) with (rnd64 (IZR (Z.of_N (d_int d)))).
              unfold uts_i in Li. rewrite rnd64_int by lia. apply Rlt_trans with (IZR (2 ^ 53)); [apply IZR_lt; lia|]. change (IZR (2 ^ 53)) with (bpow radix2 53). now apply bpow_lt.
      * destruct (numeral_high s d po (2 ^ 53) Nu E K Li ltac:(lia) k L) as (H & _). rewrite H. symmetry. apply N.eqb_neq. lia.
    + destruct (SFeqb (op_n po) (f64_of_N k)) eqn:Q; [|reflexivity]. destruct (Fin k Q L) as [F1 F2]. exfalso. apply (NR k). split; [exact Z|]. exists (op_n po). auto.
Qed.

(** ** Any numeral *)
Lemma C121_lemma how id t pr w s d : create how id t = Ok pr -> numeral s d -> accepted s -> keeps_integer d ->
  exists rules c, In (id, rules) (cldr t) /\ select w pr (InStr s) = Ok c /\
  (forall k, rounded_to d k -> (cldr_select rules d c <-> rounded_wrong t id k d = false)) /\
  ((forall k, ~ rounded_to d k) -> (cldr_select rules d c <-> wrong_number t id d = false)).
Proof.
  intros C Nu A K. apply accepted_iff in A as (po & E). pose proof (numeral_proper _ _ Nu) as P.
  destruct (C93_lemma how id t pr C) as (rules & I & U & H93). destruct (n_fields s d po Nu E K) as [R1 R2].
  exists rules, (code_select rules po). split; [exact I|]. split; [exact (H93 w (InStr s) po E)|]. split.
  - intros k Rk. destruct (R1 k Rk) as [Fl Ik]. destruct Rk as [Z _].
    destruct (in_dec N.eq_dec k (compared rules)) as [J|J].
    + apply (rounded_lemma t id rules d po k); auto; [now apply (fields_weaken _ _ _ (2 ^ 53)); [exact L20001|]|].
      apply Ik. pose proof (compared_small t) as S. rewrite forallb_forall in S. specialize (S _ I). cbn [snd] in S. rewrite forallb_forall in S. specialize (S k J). lia.
    + assert (RN : rounding t id k (uts_i d) (uts_f d) = None).
      { rewrite rounding_entries. destruct (List.find _ (entries t id)) as [[[n l] wr]|] eqn:Fd; [exfalso|reflexivity].
        apply List.find_some in Fd as [J1 J2]. cbn [fst snd] in J2. pose proof (rounding_check t) as H. rewrite forallb_forall in H. specialize (H _ I).
        unfold rounding_ok in H. cbv zeta in H. apply andb_true_iff in H as [_ H]. rewrite forallb_forall in H. specialize (H _ J1). cbn [fst snd] in H.
        rewrite forallb_forall in H. apply in_among in J2. specialize (H _ J2). apply in_among in H. contradiction. }
      unfold rounded_wrong. rewrite RN.
      pose (po' := mkOps S754_nan (uts_i d) (uts_v d) (uts_w d) (uts_f d) (uts_t d)).
      assert (F' : fields po' d (own (triple_of d)) (2 ^ 53)).
      { constructor; try reflexivity. intros j _. unfold own, triple_of. cbn [fst snd]. apply N.eqb_neq in Z. now rewrite Z. }
      destruct (exact_fields how id t pr w (InOps po') po' d C eq_refl F' P) as (rs & c & I' & S' & H'). specialize (U rs I'). subst rs.
      rewrite (H93 w (InOps po') po' eq_refl) in S'. injection S' as S'.
      assert (EQ : code_select rules po = c); [|now rewrite EQ]. rewrite <- S'. pose proof (C118_six_lemma t id rules I) as Vw.
      rewrite (z_select_ok _ _ _ _ _ rules d po _ Vw (fields_weaken _ _ _ _ _ L20001 Fl)).
      rewrite (z_select_ok _ _ _ _ _ rules d po' _ Vw (fields_weaken _ _ _ _ _ L20001 F')).
      apply z_select_hit. intros j Jj. unfold own, triple_of. cbn [fst snd hit]. apply N.eqb_neq in Z. rewrite Z. cbn [hit]. apply N.eqb_neq. intros ->. contradiction.
  - intro NR. destruct (exact_fields how id t pr w (InStr s) po d C E (R2 NR) P) as (rs & c & I' & S' & H'). specialize (U rs I'). subst rs.
    rewrite (H93 w (InStr s) po E) in S'. injection S' as S'. now rewrite S'.
Qed.
(** every wrong entry of the table has its numerals *)
Definition just_above (k : N) : decimal := mkDecimal k (repeat 0 (if k =? 0 then 330%nat else 19%nat) ++ [2]).
Definition compared_with : list N := [0; 1; 2; 3; 4; 5; 6; 7; 8; 9; 10; 11; 12; 13; 80; 800].
Lemma compared_with_ok t : forallb (fun e => forallb (fun k => among k compared_with) (compared (snd e))) (cldr t) = true.
Proof. destruct t; vm_compute; reflexivity. Qed.
Lemma spoilt_check : forallb (fun k =>
  match SFcompare (dec64 (uts_num (just_above k)) (- Z.of_N (uts_v (just_above k)))) (f64_of_N k) with Some Eq => true | _ => false end) compared_with = true.
Proof. vm_compute. reflexivity. Qed.
Lemma just_above_facts k : proper (just_above k) /\ uts_i (just_above k) = k /\ uts_f (just_above k) = 2 /\ uts_v (just_above k) <> 0.
Proof.
  split; [|split; [reflexivity|unfold just_above; destruct (k =? 0); split; vm_compute; congruence]]. unfold proper, just_above. cbn [d_frac]. apply Forall_app. split; [|repeat constructor].
  apply Forall_forall. intros x I. apply repeat_spec in I. subst x. reflexivity.
Qed.
Lemma entry_wrong t id k i f : rounding t id k i f = Some true -> rounding t id k k 2 = Some true.
Proof.
  unfold rounding. destruct (List.find _ (rounding_table t)) as [[[n l] b]|] eqn:E; [|discriminate].
  apply List.find_some in E as [E K]. apply andb_true_iff in K as [_ K]. apply in_among in K. cbn [fst snd] in K.
  assert (H : Forall (fun e : string * list N * (N -> N -> bool) => forall x y z, In x (snd (fst e)) -> snd e y z = true -> snd e x 2 = true) (rounding_table t)).
  { destruct t; cbn [rounding_table]; repeat constructor; cbn [fst snd]; intros x y z I; try easy.
    - destruct I as [<-|[]]. reflexivity.
    - destruct I as [<-|[<-|[]]]; reflexivity. }
  rewrite Forall_forall in H. specialize (H _ E k i f K). cbn [snd] in H. intro W. injection W as W. now rewrite H.
Qed.
Lemma C121_happens_lemma how id t pr w k i f : create how id t = Ok pr -> rounding t id k i f = Some true ->
  exists s d rules c, numeral s d /\ accepted s /\ keeps_integer d /\ rounded_to d k /\
    In (id, rules) (cldr t) /\ select w pr (InStr s) = Ok c /\ ~ cldr_select rules d c.
Proof.
  intros C W. apply entry_wrong in W. destruct (just_above_facts k) as (P & Ui & Uf & Uv). destruct (proper_numeral _ P) as [s Nu].
  destruct (C93_lemma how id t pr C) as (rules & I & U & _).
  assert (J : In k (compared rules)).
  { pose proof W as W'. rewrite rounding_entries in W'. destruct (List.find _ (entries t id)) as [[[n l] wr]|] eqn:Fd; [|discriminate W'].
    apply List.find_some in Fd as [J1 J2]. cbn [fst snd] in J2. pose proof (rounding_check t) as H. rewrite forallb_forall in H. specialize (H _ I).
    unfold rounding_ok in H. cbv zeta in H. apply andb_true_iff in H as [_ H]. rewrite forallb_forall in H. specialize (H _ J1). cbn [fst snd] in H.
    rewrite forallb_forall in H. apply in_among in J2. specialize (H _ J2). now apply in_among in H. }
  assert (Ks : k < 20001) by (pose proof (compared_small t) as S; rewrite forallb_forall in S; specialize (S _ I); cbn [snd] in S; rewrite forallb_forall in S; specialize (S k J); lia).
  destruct (FloatConf.numeral_operands s _ Nu) as (po & E & _); [intros _; change (d_int (just_above k)) with k; lia|change (d_int (just_above k)) with k; lia|rewrite Uf; reflexivity|].
  assert (R : rounded_to (just_above k) k).
  { split; [rewrite Uf; discriminate|]. exists (dec64 (uts_num (just_above k)) (- Z.of_N (uts_v (just_above k)))).
    destruct (f64_of_N_exact k) as (A & B & _); [lia|].
    pose proof (compared_with_ok t) as Jc. rewrite forallb_forall in Jc. specialize (Jc _ I). cbn [snd] in Jc. rewrite forallb_forall in Jc. specialize (Jc k J). apply in_among in Jc.
    pose proof spoilt_check as S. rewrite forallb_forall in S. specialize (S k Jc).
    set (y := dec64 (uts_num (just_above k)) (- Z.of_N (uts_v (just_above k)))) in *.
    assert (Q : SFeqb y (f64_of_N k) = true) by (unfold SFeqb; destruct (SFcompare y (f64_of_N k)) as [[]|]; [reflexivity|discriminate S|discriminate S|discriminate S]).
    split; [rewrite dec_value; apply dec64_nearest'|].
    assert (FN : is_finite_SF y = true) by (destruct y, (f64_of_N k); try reflexivity; try discriminate B; destruct s0; discriminate Q).
    split; [exact FN|]. rewrite SFeqb_correct in Q by (exact FN || exact B || apply (valid_dec_to_float 53 1024 _ _) || apply valid_f64_of_N).
    rewrite A in Q. revert Q. case Req_bool_spec; [auto|discriminate]. }
  assert (Ac : accepted s) by (apply accepted_iff; eauto).
  assert (Ki : keeps_integer (just_above k)) by (left; exact Uv).
  destruct (C121_lemma how id t pr w s (just_above k) C Nu Ac Ki) as (rs & c & I' & S & H & _). specialize (U rs I'). subst rs.
  exists s, (just_above k), rules, c. repeat (split; [assumption|]). rewrite (H k R). unfold rounded_wrong. rewrite Ui, Uf, W. discriminate.
Qed.
(** numbers that fit in a double are not rounded to integers *)
Lemma short_survives d : proper d -> small d -> forall k, k < 2 ^ 53 -> ~ rounded_to d k.
Proof.
  intros P S k L R. destruct (proper_numeral d P) as [s Nu]. destruct (numeral_represents s d Nu S) as (po & E & Rp).
  assert (Ki : keeps_integer d). { right. destruct S as [S _]. unfold uts_num in S. unfold uts_i in *. pose proof (den_pos d). assert (d_int d * 1 <= d_int d * uts_den d) by (apply N.mul_le_mono_l; lia). lia. }
  destruct (n_fields s d po Nu E Ki) as [H _]. destruct (H k R) as [Fl _]. pose proof (fl_n _ _ _ _ Fl k L) as Q.
  rewrite (n_eq_represents po d k Rp P L) in Q. cbn [hit] in Q. rewrite N.eqb_refl in Q. destruct R as [Z _]. lia.
Qed.
