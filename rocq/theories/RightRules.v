(** * C124: rules whose relations are all generated faithfully

    C103 and C123 say which relations these are.  Here they are put together to
    conditions and to a whole file. *)
From Coq Require Import Lia Floats.SpecFloat.
From Verif Require Import Base F64 Operands Ast CldrParser LangId Tokens GenPr GenRs Json JsonSpec MakeRules RustExpr Spec PluralRules Cldr CodeSpec
  DigitFacts GenFacts GenMeaning CodeProps CodeMore Represents Conformance ConformanceProps FileSpec MakeRead MakeMore MakeProps Pipeline Faithful WithinFaithful.
Open Scope N_scope.

(** ** Specification *)
(** with [ai] for integers only *)
Definition relation_right (ai : bool) (r : relation) : Prop :=
  moderate r /\ rel_list r <> [] /\
  match rel_op r with
  | OpWithin | OpNotWithin => exists rg, first_range (rel_list r) = Some rg /\
      match ex_operand (rel_expr r) with
      | ON | OI => if ai then within_right_int r rg else within_right r rg
      | _ => within_right_other r rg
      end
  | _ => if ai then faithful_on_integers r else faithful r
  end.
(** a relation that only integers satisfy helps the others *)
Definition and_right (ai : bool) (a : and_condition) : Prop :=
  a <> [] /\ exists g, (g = true -> ai = true \/ exists r, In r a /\ integer_guard r = true /\ relation_right false r) /\ Forall (relation_right g) a.
Definition condition_right (ai : bool) (c : condition) : Prop := c <> [] /\ Forall (and_right ai) c.
Definition rules_right (ai : bool) (cs : list (category * condition)) : Prop :=
  forall c co, In (c, co) cs -> c <> OTHER -> condition_right ai co.

(** ** One relation *)
Lemma t_possible l : Forall (fun x => x < 10) l -> strip_trailing l = [] \/ frac_value (strip_trailing l) mod 10 <> 0.
Proof.
  induction 1 as [|x l H F IH]; [now left|]. cbn [strip_trailing]. destruct (strip_trailing l) as [|y r] eqn:E.
  - destruct (N.eqb_spec x 0) as [Z|Z]; [now left|right]. cbn [frac_value List.length]. change (10 ^ N.of_nat 0) with 1.
    rewrite N.mul_1_r, N.add_0_r, N.mod_small by assumption. exact Z.
  - destruct IH as [IH|IH]; [discriminate|]. right.
    change (frac_value (x :: y :: r)) with (x * 10 ^ N.of_nat (List.length (y :: r)) + frac_value (y :: r)).
    cbn [List.length]. rewrite Nat2N.inj_succ, N.pow_succ_r'.
    replace (x * (10 * 10 ^ N.of_nat (List.length r)) + frac_value (y :: r)) with (frac_value (y :: r) + (x * 10 ^ N.of_nat (List.length r)) * 10) by lia.
    rewrite N.mod_add by lia. exact IH.
Qed.
Lemma other_sound r rg po d : a_within (rel_op r) -> on_digits r -> first_range (rel_list r) = Some rg ->
  within_right_other r rg -> represents po d -> proper d -> code_relation po r = uts_relation r d.
Proof.
  intros A OD F W R P.
  assert (X : possible (ex_operand (rel_expr r)) (digit_operand (ex_operand (rel_expr r)) d) /\
              code_operand (ex_operand (rel_expr r)) po = digit_operand (ex_operand (rel_expr r)) d /\
              uts_operand (ex_operand (rel_expr r)) d = (digit_operand (ex_operand (rel_expr r)) d, 1)).
  { destruct OD as [O1 O2], R. destruct (ex_operand (rel_expr r)); try easy; cbn [possible digit_operand code_operand uts_operand]; repeat split; auto.
    unfold uts_t. destruct (t_possible (d_frac d) P) as [T|T]; [left; now rewrite T|now right]. }
  destruct X as (X1 & X2 & X3). specialize (W (op_i po) _ X1).
  apply (proj2 (bool_iff (code_relation po r) (uts_relation r d) _ _
    (code_tested r rg po A F (plain_digits r OD)) (iff_refl _))).
  assert (U : uts_relation r d = true <-> wanted covers (rel_op r) (rel_list r) (reduced (ex_modulus (rel_expr r)) (digit_operand (ex_operand (rel_expr r)) d))).
  { rewrite uts_within by exact A. apply wanted_of; [exact A|]. intro it. unfold uts_expr. rewrite X3.
    destruct (ex_modulus (rel_expr r)) as [m|]; cbn [reduced]; rewrite ?N.mul_1_r; apply item_within_int. }
  unfold within_operand. rewrite U, X2. exact W.
Qed.
Lemma int_sound r rg po d : a_within (rel_op r) -> on_value r -> moderate r -> first_range (rel_list r) = Some rg ->
  within_right_int r rg -> represents po d -> proper d -> uts_f d = 0 -> code_relation po r = uts_relation r d.
Proof.
  intros A V Mo F W R P Z. destruct (plain_n (rel_expr r)) eqn:PN.
  - apply (within_right_sound r rg); auto. split; [exact W|].
    unfold plain_n in PN. destruct (ex_operand (rel_expr r)); auto. now destruct (ex_modulus (rel_expr r)).
  - apply (within_value r rg); auto. cbv zeta. unfold cov_of. rewrite Z. cbn [N.eqb].
    destruct (ex_operand (rel_expr r)); apply W, reduced_residue, Mo.
Qed.
Lemma relation_sound ai r po d : relation_right ai r -> represents po d -> proper d -> (ai = true -> uts_f d = 0) ->
  code_relation po r = uts_relation r d.
Proof.
  intros (Mo & NE & H) R P AI.
  assert (WI : a_within (rel_op r) -> (exists rg, first_range (rel_list r) = Some rg /\
      match ex_operand (rel_expr r) with
      | ON | OI => if ai then within_right_int r rg else within_right r rg
      | _ => within_right_other r rg
      end) -> code_relation po r = uts_relation r d).
  { intros A (rg & F & W).
    assert (V : on_value r -> (if ai then within_right_int r rg else within_right r rg) -> code_relation po r = uts_relation r d).
    { intros V W'. destruct ai; [apply (int_sound r rg)|apply (within_right_sound r rg)]; auto. }
    assert (O : on_digits r -> within_right_other r rg -> code_relation po r = uts_relation r d) by (intros; now apply (other_sound r rg)).
    unfold on_value, on_digits in V, O. destruct (ex_operand (rel_expr r)); solve [apply V; auto] || (apply O; [split; discriminate|auto]). }
  assert (MB : membership (rel_op r) -> (if ai then faithful_on_integers r else faithful r) -> code_relation po r = uts_relation r d).
  { intros M W. destruct ai; [apply faithful_right_int|apply faithful_right]; auto. }
  unfold a_within, membership in *.
  destruct (rel_op r); (apply WI; [auto|exact H]) || (apply MB; [split; discriminate|exact H]).
Qed.

(** ** Conditions *)
Lemma and_sound ai a po d : and_right ai a -> represents po d -> proper d -> (ai = true -> uts_f d = 0) ->
  forallb (code_relation po) a = uts_and a d.
Proof.
  intros (NE & g & G & F) R P AI. unfold uts_and.
  assert (ALL : (g = true -> uts_f d = 0) -> forallb (code_relation po) a = forallb (fun r => uts_relation r d) a).
  { intro Z. clear G NE. induction F as [|r a H F IH]; [reflexivity|]. cbn [forallb]. now rewrite IH, (relation_sound g r po d H R P Z). }
  destruct g; [|now apply ALL]. destruct (G eq_refl) as [Q|(r & I & GU & RR)]; [apply ALL; auto|].
  destruct (uts_relation r d) eqn:U; [apply ALL; intros _; now apply (guard_integral r d)|].
  assert (C : code_relation po r = false) by (rewrite (relation_sound false r po d RR R P ltac:(discriminate)); exact U).
  transitivity false; [|symmetry]; apply Bool.not_true_iff_false; rewrite forallb_forall; intro T; specialize (T r I); congruence.
Qed.
Lemma condition_sound ai c po d : condition_right ai c -> represents po d -> proper d -> (ai = true -> uts_f d = 0) ->
  code_condition c po = uts_condition c d.
Proof.
  intros [_ F] R P AI. unfold code_condition, uts_condition. induction F as [|a c H F IH]; [reflexivity|].
  cbn [existsb]. now rewrite IH, (and_sound ai a po d H R P AI).
Qed.
Lemma right_fits g r : relation_right g r -> code_relation_fits r = true /\ lacks_range r = false.
Proof.
  intros (Mo & NE & H). unfold lacks_range. destruct (rel_op r) eqn:O;
    try (split; [apply moderate_fits; [unfold membership; rewrite O; split; discriminate|exact Mo]|reflexivity]);
    destruct H as (rg & F & _); (split; [apply (within_fits r rg); [unfold a_within; rewrite O; auto|exact Mo|exact F]|now rewrite F]).
Qed.
Lemma right_ready ai c : condition_right ai c -> no_gaps c /\ lacks_ranges c = false /\ code_fits c = true.
Proof.
  intros [NE F]. split; [|split].
  - split; [exact NE|]. apply Forall_forall. intros a I. rewrite Forall_forall in F. destruct (F a I) as (N & g & _ & G). split; [exact N|].
    apply Forall_forall. intros r J. rewrite Forall_forall in G. apply (G r J).
  - apply Bool.not_true_iff_false. intro T. unfold lacks_ranges in T. apply existsb_exists in T as (a & I & T). apply existsb_exists in T as (r & J & T).
    rewrite Forall_forall in F. destruct (F a I) as (_ & g & _ & G). rewrite Forall_forall in G. destruct (right_fits g r (G r J)) as [_ Q]. congruence.
  - unfold code_fits. apply forallb_forall. intros a I. apply forallb_forall. intros r J.
    rewrite Forall_forall in F. destruct (F a I) as (_ & g & _ & G). rewrite Forall_forall in G. now destruct (right_fits g r (G r J)).
Qed.

Lemma C124_condition_lemma ai c : condition_right ai c ->
  exists ts e, gen_pr c = Ok ts /\ read_bexpr ts = Some e /\
    (forall s d, numeral s d -> small d -> (ai = true -> integral d = true) ->
       exists po, operands_from_str s = Ok po /\ eval e po = Ok (uts_condition c d)) /\
    (forall x, x < 2 ^ 64 -> eval e (operands_from_unsigned x) = Ok (uts_condition c (mkDecimal x []))).
Proof.
  intro H. destruct (right_ready ai c H) as (NG & L & FI).
  destruct (C91_lemma c NG L) as (ts & e & G & RE & _ & EV). exists ts, e. split; [exact G|]. split; [exact RE|]. split.
  - intros s d Nm Sm AI. destruct (numeral_represents s d Nm Sm) as (po & E & R). exists po. split; [exact E|].
    rewrite (EV FI). f_equal. apply (condition_sound ai); auto; [now apply (numeral_proper s)|]. intro Q. now apply N.eqb_eq, AI.
  - intros x X. rewrite (EV FI). f_equal. apply (condition_sound ai); auto; [now apply unsigned_represents|constructor].
Qed.

(** ** The library over a regenerated file *)
Lemma code_select_right ai cs po d : rules_right ai cs -> represents po d -> proper d -> (ai = true -> uts_f d = 0) ->
  cldr_select cs d (code_select cs po).
Proof.
  intros H R P AI. unfold code_select.
  assert (Q : forall c co, In (c, co) cs -> c <> OTHER -> code_condition co po = uts_condition co d).
  { intros c co I N. apply (condition_sound ai); auto. now apply (H c co). }
  destruct (List.find _ cs) as [[c co]|] eqn:E.
  - apply find_some in E as [I T]. cbn [fst snd] in T. left. assert (N : c <> OTHER) by (intros ->; discriminate). split; [exact N|].
    exists co. split; [exact I|]. rewrite <- (Q c co I N). destruct c; try exact T. now elim N.
  - right. split; [reflexivity|]. intros c co I N. pose proof (find_none _ _ E (c, co) I) as T. cbn [fst snd] in T.
    rewrite <- (Q c co I N). destruct c; try exact T. now elim N.
Qed.

Lemma C124_library_lemma {ptr : ptr_width} srt jsons out rs t r d ai : sorts srt -> generate_rs srt jsons = Ok out -> inputs_are jsons rs ->
  In r rs -> data_of t r = Some d -> plain_distinct d ->
  (forall key id cs, input_locale d key id cs -> li_language id <> None /\ rules_right ai cs) ->
  exists tbl, output_table t out = Some tbl /\ forall how,
    (forall id, (exists pr, create_in how tbl id = Ok pr) <-> exists key id0 cs, input_locale d key id0 cs /\ id = drop_variants id0) /\
    forall key id cs, input_locale d key id cs ->
    exists pr, create_in how tbl (drop_variants id) = Ok pr /\ get_locale pr = drop_variants id /\
      forall w, follows ai w pr cs.
Proof.
  intros S G I R D PD H.
  destruct (C92_lemma _ _ _ _ _ _ _ S G I R D) as (tbl & O & K).
  { intros key id cs IL. destruct (H _ _ _ IL) as [A B]. split; [auto|]. intros c co J N. now apply (right_ready ai co), (B c co). }
  exists tbl. split; [auto|]. destruct (lookup _ _ _ _ _ _ _ _ S G I R D PD O) as [SS L]. intros how.
  split.
  - intros id. rewrite <- L. destruct (ApiProps.create_in_spec how tbl id SS) as [(b & B & E)|(N & E)]; rewrite E.
    + split; [|eauto]. intros _. now apply in_map with (f := fst) in B.
    + split; [intros (pr & Q); discriminate|intros Q; contradiction].
  - intros key id cs IL. destruct (K key id cs IL) as (b & B & BC & E). destruct (H _ _ _ IL) as [_ Q].
    exists (mkPR (drop_variants id) b). split; [now apply found|]. split; [reflexivity|]. intros w. apply follows_of.
    intros po dec RP PR AI. exists (code_select cs po). split; [|now apply (code_select_right ai)].
    apply E. rewrite BC. apply forallb_forall. intros [c co] J. apply filter_In in J as [J N]. cbn [snd].
    apply (right_ready ai co), (Q c co J). now destruct c.
Qed.
