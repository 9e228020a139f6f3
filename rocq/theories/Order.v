(** * C106: where the order in which the categories are tested matters *)
From Coq Require Import Lia Permutation Floats.SpecFloat.
From Flocq Require Import IEEE754.BinarySingleNaN.
From Verif Require Import Base F64 Operands Ast LangId GenRs Json RustExpr PluralRules Tables Cldr Spec ApiProps GenFacts GenMeaning
  Represents Conformance OperandsFacts OperandsProps SpecR FloatProps ConformanceProps FloatConf CodeSpec CodeProps CodeMore CodeShipped MakeBody MakeProps Faithful Exclusive FloatAny.
Open Scope N_scope.

(** ** The conditions the generated code tests, as CLDR conditions *)
Definition read_item (ex : expression) (it : range_list_item) : and_condition :=
  match ex_operand ex, ex_modulus ex, it with
  | ON, Some m, RValue _ => [mkRel (mkExpr OI (Some m)) OpIn [it]]
  | ON, Some _, RRange _ => [mkRel (mkExpr OI None) OpIn [it]]
  | _, _, _ => [mkRel ex OpIn [it]]
  end.
Definition read_not_item (ex : expression) (it : range_list_item) : and_condition :=
  match ex_operand ex, ex_modulus ex, it with
  | ON, Some m, RValue _ => [mkRel (mkExpr OI (Some m)) OpNotIn [it]]
  | ON, Some _, RRange _ => [mkRel (mkExpr OI None) OpNotIn [it]]
  | ON, None, RRange _ => [mkRel (mkExpr OI None) OpNotIn [it]; mkRel (mkExpr OF None) OpIn [RValue 0]]
  | _, _, _ => [mkRel ex OpNotIn [it]]
  end.
Definition read_relation (r : relation) : condition :=
  match rel_op r with
  | OpIn | OpIs | OpEQ => List.map (read_item (rel_expr r)) (rel_list r)
  | OpNotIn | OpIsNot | OpNotEQ => [flat_map (read_not_item (rel_expr r)) (rel_list r)]
  | OpWithin | OpNotWithin => []
  end.
Definition read_and (a : and_condition) : condition :=
  fold_right (fun r acc => flat_map (fun x => List.map (fun y => x ++ y) acc) (read_relation r)) [[]] a.
Definition read_code (c : condition) : condition := flat_map read_and c.
Definition read_rules (rs : list (category * condition)) : list (category * condition) :=
  List.map (fun cc => (fst cc, read_code (snd cc))) rs.
Definition whole_number : relation := mkRel (mkExpr OF None) OpIn [RValue 0].
Definition on_integers (rs : list (category * condition)) : list (category * condition) :=
  List.map (fun cc => (fst cc, List.map (fun a => whole_number :: a) (snd cc))) rs.

(** ** They are what the code tests *)
Lemma uts_i_item m it d :
  uts_relation (mkRel (mkExpr OI m) OpIn [it]) d =
  match it with RValue v => reduced m (d_int d) =? v | RRange r => between (lower_val r) (reduced m (d_int d)) (upper_val r) end.
Proof.
  unfold uts_relation, uts_expr. cbn [rel_op rel_expr rel_list existsb ex_operand ex_modulus uts_operand]. rewrite Bool.orb_false_r.
  assert (E : (match m with None => (uts_i d, 1) | Some m => (uts_i d mod (m * 1), 1) end) = (reduced m (d_int d), 1)).
  { unfold uts_i, reduced. destruct m; [now rewrite N.mul_1_r|reflexivity]. }
  destruct m; cbv beta iota in E |- *; rewrite E; destruct it; cbn [item_in]; rewrite ?N.mod_1_r, ?N.mul_1_r; reflexivity.
Qed.
Lemma uts_not ex it d : uts_relation (mkRel ex OpNotIn [it]) d = negb (uts_relation (mkRel ex OpIn [it]) d).
Proof. reflexivity. Qed.
Lemma uts_one ex it d : uts_relation (mkRel ex OpIn [it]) d = item_in (uts_expr ex d) it.
Proof. unfold uts_relation. cbn [rel_op rel_expr rel_list existsb]. apply Bool.orb_false_r. Qed.
Lemma uts_whole d : uts_relation whole_number d = (uts_f d =? 0).
Proof. unfold whole_number. rewrite uts_one. cbn [uts_expr ex_operand ex_modulus uts_operand item_in]. reflexivity. Qed.
Lemma item_read ex po d it : represents po d -> proper d -> item_moderate it ->
  code_item ex po it = uts_and (read_item ex it) d.
Proof.
  intros R P M. destruct ex as [o m]. unfold read_item. cbn [ex_operand ex_modulus].
  assert (G : (o = ON -> m = None) -> code_item (mkExpr o m) po it = uts_and [mkRel (mkExpr o m) OpIn [it]] d).
  { intro C. unfold uts_and. cbn [forallb]. rewrite uts_one, Bool.andb_true_r. now apply code_item_agrees. }
  destruct o; try (destruct it; apply G; discriminate). destruct m as [m|]; [|destruct it; now apply G]. clear G.
  rewrite (code_mod m po d it R). destruct it as [r|v]; unfold uts_and; cbn [forallb]; rewrite Bool.andb_true_r, uts_i_item; reflexivity.
Qed.
Lemma not_item_read ex po d it : represents po d -> proper d -> item_moderate it ->
  code_not_item ex po it = uts_and (read_not_item ex it) d.
Proof.
  intros R P M. pose proof (item_read ex po d it R P M) as E. destruct ex as [o m].
  assert (G : plain_n (mkExpr o m) = false \/ is_value it = true -> forall r, read_item (mkExpr o m) it = [mkRel r OpIn [it]] ->
    read_not_item (mkExpr o m) it = [mkRel r OpNotIn [it]] -> code_not_item (mkExpr o m) po it = uts_and (read_not_item (mkExpr o m) it) d).
  { intros C r A B. rewrite (code_not _ po it C), E, A, B. unfold uts_and. cbn [forallb]. now rewrite uts_not, !Bool.andb_true_r. }
  destruct o; try (destruct it; eapply G; solve [now left|reflexivity]).
  destruct m as [m|]; [destruct it; eapply G; (now left) || reflexivity|].
  destruct it as [r|v]; [|eapply G; (now right) || reflexivity]. clear G E.
  unfold read_not_item, uts_and. cbn [ex_operand ex_modulus forallb]. rewrite uts_not, uts_i_item. fold whole_number. rewrite uts_whole, Bool.andb_true_r.
  cbn [code_not_item]. unfold code_range, no_fraction, plain_n, on_n. cbn [ex_operand ex_modulus reduced]. now rewrite (rp_i _ _ R), (rp_f _ _ R).
Qed.
Lemma uts_and_app a b d : uts_and (a ++ b) d = uts_and a d && uts_and b d.
Proof. apply forallb_app. Qed.
Lemma relation_read r po d : membership (rel_op r) -> moderate r -> represents po d -> proper d ->
  code_relation po r = uts_condition (read_relation r) d.
Proof.
  intros [M1 M2] [_ Mo] R P. unfold code_relation, read_relation, uts_condition. rewrite Forall_forall in Mo.
  assert (A : existsb (code_item (rel_expr r) po) (rel_list r) = existsb (fun a => uts_and a d) (List.map (read_item (rel_expr r)) (rel_list r))).
  { induction (rel_list r) as [|it l IH]; [reflexivity|]. cbn [existsb List.map]. rewrite IH by (intros; apply Mo; now right).
    now rewrite (item_read _ po d it R P (Mo it (or_introl eq_refl))). }
  assert (B : forallb (code_not_item (rel_expr r) po) (rel_list r) = uts_and (flat_map (read_not_item (rel_expr r)) (rel_list r)) d).
  { clear A. induction (rel_list r) as [|it l IH]; [reflexivity|]. cbn [forallb flat_map]. rewrite uts_and_app, IH by (intros; apply Mo; now right).
    now rewrite (not_item_read _ po d it R P (Mo it (or_introl eq_refl))). }
  destruct (rel_op r); try (exfalso; congruence); try exact A; cbn [existsb]; rewrite Bool.orb_false_r; exact B.
Qed.
Definition readable (c : condition) : Prop := Forall (Forall (fun r => membership (rel_op r) /\ moderate r)) c.
Lemma product_ok x acc d : existsb (fun a => uts_and a d) (List.map (fun y => x ++ y) acc) = uts_and x d && existsb (fun a => uts_and a d) acc.
Proof.
  induction acc as [|y acc IH]; cbn [List.map existsb]; [now rewrite Bool.andb_false_r|]. rewrite IH, uts_and_app.
  now destruct (uts_and x d), (uts_and y d).
Qed.
Lemma existsb_flat_map {A B} (f : B -> bool) (g : A -> list B) l : existsb f (flat_map g l) = existsb (fun a => existsb f (g a)) l.
Proof. induction l as [|a l IH]; [reflexivity|]. cbn [flat_map existsb]. now rewrite existsb_app, IH. Qed.
Lemma and_read a po d : Forall (fun r => membership (rel_op r) /\ moderate r) a -> represents po d -> proper d ->
  forallb (code_relation po) a = uts_condition (read_and a) d.
Proof.
  intros F R P. unfold uts_condition. induction F as [|r a [M1 M2] F IH]; [reflexivity|]. cbn [forallb read_and fold_right]. fold (read_and a).
  rewrite (relation_read r po d M1 M2 R P), IH, existsb_flat_map. unfold uts_condition.
  induction (read_relation r) as [|x l IHl]; [reflexivity|]. cbn [existsb]. rewrite product_ok, <- IHl.
  now destruct (uts_and x d), (existsb (fun a0 => uts_and a0 d) l), (existsb (fun a0 => uts_and a0 d) (read_and a)).
Qed.
Lemma condition_read c po d : readable c -> represents po d -> proper d -> code_condition c po = uts_condition (read_code c) d.
Proof.
  intros F R P. unfold code_condition, read_code, uts_condition. rewrite existsb_flat_map.
  induction F as [|a c A F IH]; [reflexivity|]. cbn [existsb]. now rewrite (and_read a po d A R P), IH.
Qed.

(** ** The shipped rules *)
Definition moderate_itemb (it : range_list_item) : bool :=
  match it with RValue v => v <? 562949953421312 | RRange r => (lower_val r <? 562949953421312) && (upper_val r <? 562949953421312) end.
Definition readableb (c : condition) : bool :=
  forallb (forallb (fun r => match rel_op r with OpWithin | OpNotWithin => false | _ => true end &&
    match ex_modulus (rel_expr r) with Some m => (0 <? m) && (m <? 562949953421312) | None => true end && forallb moderate_itemb (rel_list r))) c.
Lemma readableb_ok c : readableb c = true -> readable c.
Proof.
  unfold readableb, readable. intro H. apply Forall_forall. intros a Ia. rewrite forallb_forall in H. specialize (H a Ia).
  apply Forall_forall. intros r Ir. rewrite forallb_forall in H. specialize (H r Ir).
  apply andb_prop in H as [H H3]. apply andb_prop in H as [H1 H2]. split.
  - split; intro E; rewrite E in H1; discriminate.
  - change (2 ^ 49) with 562949953421312. unfold moderate. split.
    + destruct (ex_modulus (rel_expr r)); [|constructor]. apply andb_prop in H2 as [A B]. apply N.ltb_lt in A, B. exact (conj A B).
    + apply Forall_forall. intros it Ii. rewrite forallb_forall in H3. specialize (H3 it Ii). destruct it as [rg|v]; cbn [moderate_itemb item_moderate] in *.
      * apply andb_prop in H3 as [A B]. apply N.ltb_lt in A, B. exact (conj A B).
      * now apply N.ltb_lt in H3.
Qed.
(** the locales where two tests can succeed *)
Definition overlapping (t : pr_type) : list langid :=
  match t with CARDINAL => List.map lang ["lt"; "lv"; "prg"]%string | ORDINAL => [] end.
Definition order_ok (t : pr_type) : bool :=
  forallb (fun l => forallb (fun cc => readableb (snd cc)) (snd l) &&
    (if mem (fst l) (overlapping t) then rules_exclusive (on_integers (read_rules (snd l))) else rules_exclusive (read_rules (snd l)))) (cldr t).
Lemma order_checked t : order_ok t = true.
Proof. destruct t; vm_compute; reflexivity. Qed.

(** ** Inputs that are read as the numbers they are *)
Definition plain (s : bytes) (d : decimal) : Prop :=
  numeral s d /\ (small d \/ d_int d < 2 ^ 53 /\ uts_f d < 2 ^ 64 /\ fraction_survives d).
Inductive ordinary : input -> decimal -> Prop :=
| ord_str s d : plain s d -> ordinary (InStr s) d
| ord_string s d : plain s d -> ordinary (InString s) d
| ord_unsigned x : x < 2 ^ 64 -> ordinary (InUnsigned x) (mkDecimal x [])
| ord_signed z : (Z.abs z < 2 ^ 63)%Z -> ordinary (InSigned z) (mkDecimal (Z.to_N (Z.abs z)) [])
| ord_f64 x d : valid64 x -> is_finite_SF x = true -> below_2_53 (SFabs x) -> numeral (f64_to_string x) d -> ordinary (InF64 x) d
| ord_f32 x d : valid32 x -> is_finite_SF x = true -> below_2_53 (SFabs x) -> numeral (f32_to_string x) d -> ordinary (InF32 x) d.

Lemma plain_represents s d : plain s d -> exists po, operands_from_str s = Ok po /\ represents po d /\ proper d.
Proof.
  intros [N [S|(A & B & C)]].
  - destruct (numeral_represents s d N S) as (po & E & R). exists po. split; [exact E|]. split; [exact R|]. exact (numeral_proper s d N).
  - destruct (long_represents s d N A B C) as (po & E & R). exists po. split; [exact E|]. split; [exact R|]. exact (numeral_proper s d N).
Qed.
Lemma signed_ops z : (Z.abs z < 2 ^ 63)%Z -> operands_from_signed W64 z = Ok (operands_from_unsigned (Z.to_N (Z.abs z))).
Proof.
  intro X. unfold operands_from_signed. cbn [isize_bits]. change (64 - 1)%Z with 63%Z.
  rewrite OperandsProps.wrap_small by (change (64 - 1)%Z with 63%Z; lia). cbv zeta.
  destruct (Z.eqb_spec z (- 2 ^ 63)); [lia|]. reflexivity.
Qed.
Lemma ordinary_ops x d : ordinary x d -> exists po, to_operands W64 x = Ok po /\ represents po d /\ proper d.
Proof.
  intros [s d' P|s d' P|n L|z L|f d' V F B Nm|f d' V F B Nm]; cbn [to_operands].
  - now apply plain_represents.
  - now apply plain_represents.
  - exists (operands_from_unsigned n). split; [reflexivity|]. split; [now apply unsigned_represents|constructor].
  - rewrite (signed_ops z L). eexists. split; [reflexivity|]. split; [|constructor]. apply unsigned_represents.
    change (2 ^ 64) with (Z.to_N (2 ^ 64)). apply Z2N.inj_lt; lia.
  - destruct (f64_represents f V F B) as (dd & E & d2 & po & _ & _ & _ & N2 & O & R). rewrite (numeral_det _ _ _ N2 Nm) in R.
    exists po. split; [exact O|]. split; [exact R|]. exact (numeral_proper _ _ Nm).
  - destruct (f32_represents f V F B) as (dd & E & d2 & po & _ & _ & _ & N2 & O & R). rewrite (numeral_det _ _ _ N2 Nm) in R.
    exists po. split; [exact O|]. split; [exact R|]. exact (numeral_proper _ _ Nm).
Qed.

(** ** At most one test succeeds *)
Lemma rules_exclusive_sound rs d c1 c2 k1 k2 : rules_exclusive rs = true -> proper d -> In (c1, k1) rs -> In (c2, k2) rs ->
  uts_condition k1 d = true -> uts_condition k2 d = true -> c1 = c2.
Proof.
  intros X P I1 I2 A B. unfold rules_exclusive in X. rewrite forallb_forall in X. specialize (X _ I1).
  rewrite forallb_forall in X. specialize (X _ I2). cbn [fst snd] in X. apply Bool.orb_prop in X as [X|X].
  - now apply category_eqb_eq.
  - exfalso. eapply exclusive_sound; eauto.
Qed.
Lemma whole_condition k d : integral d = true -> uts_condition (List.map (fun a => whole_number :: a) k) d = uts_condition k d.
Proof.
  intro I. unfold uts_condition. induction k as [|a k IH]; [reflexivity|]. cbn [List.map existsb]. rewrite IH. f_equal.
  change (uts_and (whole_number :: a) d) with (uts_relation whole_number d && uts_and a d). unfold integral in I. now rewrite uts_whole, I.
Qed.
Lemma tests_exclusive t id rs d po c1 c2 k1 k2 : In (id, rs) (cldr t) -> represents po d -> proper d ->
  integral d = true \/ ~ In id (overlapping t) -> In (c1, k1) rs -> In (c2, k2) rs ->
  code_condition k1 po = true -> code_condition k2 po = true -> c1 = c2.
Proof.
  intros I R P C I1 I2 A B. pose proof (order_checked t) as X. unfold order_ok in X. rewrite forallb_forall in X. specialize (X _ I).
  cbn [fst snd] in X. apply andb_prop in X as [X1 X2]. rewrite forallb_forall in X1.
  pose proof (X1 _ I1) as K1. pose proof (X1 _ I2) as K2. apply readableb_ok in K1, K2. cbn [snd] in K1, K2.
  rewrite (condition_read _ po d K1 R P) in A. rewrite (condition_read _ po d K2 R P) in B.
  apply (in_map (fun cc => (fst cc, read_code (snd cc)))) in I1, I2. cbn [fst snd] in I1, I2. fold (read_rules rs) in I1, I2.
  destruct (mem id (overlapping t)) eqn:M.
  - destruct C as [C|C]; [|exfalso; now apply C, mem_in].
    apply (in_map (fun cc => (fst cc, List.map (fun a => whole_number :: a) (snd cc)))) in I1, I2. cbn [fst snd] in I1, I2. fold (on_integers (read_rules rs)) in I1, I2.
    eapply (rules_exclusive_sound _ d); [exact X2|exact P|exact I1|exact I2| |]; now rewrite whole_condition.
  - eapply (rules_exclusive_sound _ d); [exact X2|exact P|exact I1|exact I2|exact A|exact B].
Qed.
(** the tests of a function and their values *)
Definition clear_arms (arms : list (bexpr * category)) (po : operands) : Prop :=
  (forall e c, In (e, c) arms -> exists b, eval e po = Ok b) /\
  (forall e1 c1 e2 c2, In (e1, c1) arms -> In (e2, c2) arms -> eval e1 po = Ok true -> eval e2 po = Ok true -> c1 = c2).
Lemma arms_value arms els po : (forall e c, In (e, c) arms -> exists b, eval e po = Ok b) ->
  (exists e c, In (e, c) arms /\ eval e po = Ok true /\ eval_arms arms els po = Ok c) \/
  (forall e c, In (e, c) arms -> eval e po = Ok false) /\ eval_arms arms els po = Ok els.
Proof.
  induction arms as [|[e c] arms IH]; intro H; [right; split; [intros ? ? []|reflexivity]|]. cbn [eval_arms].
  destruct (H e c (or_introl eq_refl)) as [b E]. rewrite E. cbn [rbind]. destruct b.
  - left. exists e, c. split; [now left|]. auto.
  - destruct IH as [(e' & c' & I & A & B)|[A B]]; [intros; eapply H; right; eassumption| |].
    + left. exists e', c'. split; [now right|]. auto.
    + right. split; [|exact B]. intros e' c' [Q|I]; [injection Q as <- <-; exact E|now apply (A e' c')].
Qed.
Lemma same_value arms arms' els po : clear_arms arms po -> (forall a, In a arms' <-> In a arms) ->
  eval_arms arms' els po = eval_arms arms els po.
Proof.
  intros [H1 H2] Q. assert (H1' : forall e c, In (e, c) arms' -> exists b, eval e po = Ok b) by (intros e c I; apply (H1 e c), Q, I).
  destruct (arms_value arms els po H1) as [(e & c & I & A & B)|[A B]]; destruct (arms_value arms' els po H1') as [(e' & c' & I' & A' & B')|[A' B']]; rewrite B, B'.
  - f_equal. apply (H2 e' c' e c); auto. now apply Q.
  - apply Q in I. rewrite (A' e c I) in A. discriminate.
  - apply Q in I'. rewrite (A e' c' I') in A'. discriminate.
  - reflexivity.
Qed.
Lemma function_clear how id t pr d po : create how id t = Ok pr -> represents po d -> proper d ->
  integral d = true \/ ~ In id (overlapping t) -> clear_arms (b_arms (pr_function pr)) po.
Proof.
  intros C R P H. apply C22_lemma in C as [I _]. pose proof (all_in_order_true t) as A. unfold all_in_order in A. rewrite forallb_forall in A.
  specialize (A _ I). cbn in A. destruct (find_rules t id) as [rs|] eqn:F; [|discriminate]. apply find_rules_in in F.
  apply andb_prop in A as [_ A]. apply arms_match_all in A as [A1 A2].
  assert (K : forall e c, In (e, c) (b_arms (pr_function pr)) -> exists k, In (c, k) rs /\ eval e po = Ok (code_condition k po)).
  { intros e c J. destruct (Forall2_in_r _ _ _ _ A1 J) as ([c' k] & J' & M). destruct (arm_meaning _ _ M) as (M1 & M2 & M3). cbn [fst snd] in *. subst c'.
    exists k. split; [now apply filter_In in J'|]. apply M3. rewrite forallb_forall in A2. exact (A2 _ J'). }
  split.
  - intros e c J. destruct (K e c J) as (k & _ & E). eauto.
  - intros e1 c1 e2 c2 J1 J2 E1 E2. destruct (K e1 c1 J1) as (k1 & L1 & V1). destruct (K e2 c2 J2) as (k2 & L2 & V2).
    rewrite E1 in V1. rewrite E2 in V2. injection V1 as V1. injection V2 as V2.
    exact (tests_exclusive t id rs d po c1 c2 k1 k2 F R P H L1 L2 (eq_sym V1) (eq_sym V2)).
Qed.

(** the same rules with the arms of the function in another order *)
Definition reordered (pr : plural_rules) (arms : list (bexpr * category)) : plural_rules :=
  mkPR (pr_locale pr) (mkBody arms (b_else (pr_function pr))).
Lemma C106_lemma how id t pr x d arms : create how id t = Ok pr -> ordinary x d ->
  integral d = true \/ ~ (t = CARDINAL /\ In id (List.map lang ["lt"; "lv"; "prg"]%string)) ->
  Permutation arms (b_arms (pr_function pr)) -> select W64 (reordered pr arms) x = select W64 pr x.
Proof.
  intros C O H Pm. destruct (ordinary_ops x d O) as (po & E & R & P). unfold select. rewrite E. unfold eval_body, reordered. cbn [pr_function b_arms b_else].
  apply same_value.
  - apply (function_clear how id t pr d po C R P). destruct H as [H|H]; [now left|right]. intro J. apply H. destruct t; [easy|destruct J].
  - intro a. split; apply Permutation_in; [exact Pm|now apply Permutation_sym].
Qed.

(** the three locales: one number each whose category depends on the order *)
Definition witness (name number : string) : Prop :=
  exists pr, create Halving (lang name) CARDINAL = Ok pr /\
    select W64 (reordered pr (rev (b_arms (pr_function pr)))) (InStr (bs number)) <> select W64 pr (InStr (bs number)).
Lemma witnesses : witness "lt" "1.1" /\ witness "lv" "0.1" /\ witness "prg" "0.1".
Proof. split; [|split]; (eexists; split; [vm_compute; reflexivity|vm_compute; discriminate]). Qed.
Lemma tenth_plain n : n = 0 \/ n = 1 -> plain [48 + n; 46; 49] (mkDecimal n [1]).
Proof.
  intros [-> | ->]; (split; [|left; split; [vm_compute; reflexivity|vm_compute; discriminate]]).
  - exists [], [48], [49]. repeat split; auto; try discriminate; repeat constructor; discriminate.
  - exists [], [49], [49]. repeat split; auto; try discriminate; repeat constructor; discriminate.
Qed.
Lemma witness_differs how name number pr d : witness name number -> plain (bs number) d -> create how (lang name) CARDINAL = Ok pr ->
  exists x d arms, ordinary x d /\ Permutation arms (b_arms (pr_function pr)) /\ select W64 (reordered pr arms) x <> select W64 pr x.
Proof.
  intros (pr' & C' & X) P C. apply C22_lemma in C as [_ U]. apply C22_lemma in C' as [I' _]. specialize (U _ I').
  exists (InStr (bs number)), d, (rev (b_arms (pr_function pr))). split; [now constructor|]. split; [apply Permutation_sym, Permutation_rev|].
  rewrite <- U. intro E. apply X. unfold select, reordered in *. cbn [pr_function] in *. rewrite <- U in E. exact E.
Qed.
Lemma C106_exact how id t pr : create how id t = Ok pr ->
  (forall x d arms, ordinary x d -> Permutation arms (b_arms (pr_function pr)) -> select W64 (reordered pr arms) x = select W64 pr x) <->
  ~ (t = CARDINAL /\ In id (List.map lang ["lt"; "lv"; "prg"]%string)).
Proof.
  intro C. split.
  - intros H [-> I]. destruct witnesses as (W1 & W2 & W3).
    assert (K : exists x d arms, ordinary x d /\ Permutation arms (b_arms (pr_function pr)) /\ select W64 (reordered pr arms) x <> select W64 pr x).
    { destruct I as [<-|[<-|[<-|[]]]].
      - exact (witness_differs how _ _ pr _ W1 (tenth_plain 1 (or_intror eq_refl)) C).
      - exact (witness_differs how _ _ pr _ W2 (tenth_plain 0 (or_introl eq_refl)) C).
      - exact (witness_differs how _ _ pr _ W3 (tenth_plain 0 (or_introl eq_refl)) C). }
    destruct K as (x & d & arms & O & P & D). exact (D (H x d arms O P)).
  - intros H x d arms O P. exact (C106_lemma how id t pr x d arms C O (or_intror H) P).
Qed.
Lemma C106_one how id t pr x d po e1 c1 e2 c2 : create how id t = Ok pr -> ordinary x d -> to_operands W64 x = Ok po ->
  uts_f d = 0 \/ ~ (t = CARDINAL /\ In id (List.map lang ["lt"; "lv"; "prg"]%string)) ->
  In (e1, c1) (b_arms (pr_function pr)) -> In (e2, c2) (b_arms (pr_function pr)) ->
  eval e1 po = Ok true -> eval e2 po = Ok true -> c1 = c2.
Proof.
  intros C O T H I1 I2. destruct (ordinary_ops x d O) as (po' & E & R & P). rewrite T in E. injection E as <-.
  destruct (function_clear how id t pr d po C R P) as [_ K]; [|exact (K e1 c1 e2 c2 I1 I2)].
  destruct H as [H|H]; [left; unfold integral; now rewrite H|right]. intro J. apply H. destruct t; [easy|destruct J].
Qed.
