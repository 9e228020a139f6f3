(** * The same code has the same meaning, for numbers of any size and for within (C110)

    The parts of a condition (SameSpec) are given a meaning of their own. Where it is
    the meaning of the condition, conditions with the same code have the same meaning. *)
From Coq Require Import Lia.
From Verif Require Import Base Operands Ast Tokens GenPr Spec CodeSpec SameSpec SameCode GenFacts GenMeaning Represents Faithful LengthProps.
Open Scope N_scope.

Definition bounded (o : operand) (m : option N) (lo hi : N) (d : decimal) : bool :=
  item_within (uts_expr (mkExpr o m) d) (RRange (mkRange lo hi)).
Definition check_holds (d : decimal) (k : check) : bool :=
  match k with
  | Equals n o m v => xorb n (item_in (uts_expr (mkExpr o m) d) (RValue v))
  | Between n o m lo hi => xorb n (item_in (uts_expr (mkExpr o m) d) (RRange (mkRange lo hi)))
  | Lower _ o m v => let '(a, b) := uts_expr (mkExpr o m) d in v * b <=? a
  | Upper _ o m v => let '(a, b) := uts_expr (mkExpr o m) d in a <=? v * b
  end.
Fixpoint holds (d : decimal) (l : list part) : bool :=
  match l with
  | [] => true
  | One (Lower false o m lo) :: One (Upper _ _ _ hi) :: rest => negb (bounded o m lo hi d) && holds d rest
  | One k :: rest => check_holds d k && holds d rest
  | Any ls :: rest => existsb (forallb (check_holds d)) ls && holds d rest
  end.

(** what an item is shown as *)
Definition shown (ex : expression) (d : decimal) (it : range_list_item) : bool := forallb (check_holds d) (checks false ex it).
Definition is_bound (k : check) : bool := match k with Lower _ _ _ _ | Upper _ _ _ _ => true | _ => false end.
Lemma holds_ones d l rest : existsb is_bound l = false -> holds d (List.map One l ++ rest) = forallb (check_holds d) l && holds d rest.
Proof.
  induction l as [|k l IH]; [reflexivity|]. cbn [existsb List.map List.app]. intro H. apply Bool.orb_false_elim in H as [H1 H2].
  destruct k as [n o m v|n o m lo hi|w o m v|w o m v]; try discriminate H1; cbn [holds forallb]; rewrite (IH H2); apply Bool.andb_assoc.
Qed.
Lemma checks_bounds n ex it : existsb is_bound (checks n ex it) = false.
Proof. destruct ex as [[] [m|]], it; reflexivity. Qed.
Lemma checks_negated ex d it : (ex_operand ex = ON -> ex_modulus ex = None -> is_a_value it = true \/ uts_f d = 0) ->
  forallb (check_holds d) (checks true ex it) = negb (shown ex d it).
Proof.
  intro H. unfold shown. destruct it as [r|v]; cbn [checks forallb check_holds]; [|now rewrite !Bool.andb_true_r, !Bool.xorb_false_l, Bool.xorb_true_l].
  destruct ex as [o m]. cbn [ex_operand ex_modulus] in *. destruct o, m as [m|]; cbn [forallb check_holds ex_operand ex_modulus];
    try (now rewrite !Bool.andb_true_r, !Bool.xorb_false_l, Bool.xorb_true_l).
  destruct (H eq_refl eq_refl) as [K|K]; [discriminate K|].
  assert (Z : item_in (uts_expr (mkExpr OF (@None N)) d) (RValue 0) = true) by (cbn; rewrite K; reflexivity).
  rewrite Z. rewrite !Bool.xorb_false_l, !Bool.andb_true_r. apply Bool.xorb_true_l.
Qed.
Lemma existsb_order (p : range_list_item -> bool) l : existsb p (in_order l) = existsb p l.
Proof.
  unfold in_order. rewrite existsb_app. induction l as [|it l IH]; [reflexivity|]. cbn [List.filter].
  destruct it as [r|v]; cbn [is_a_value negb existsb]; rewrite <- IH.
  - destruct (p (RRange r)), (existsb p (List.filter is_a_value l)); reflexivity.
  - destruct (p (RValue v)); reflexivity.
Qed.
Lemma order_in it l : In it (in_order l) <-> In it l.
Proof.
  unfold in_order. rewrite in_app_iff, !filter_In. destruct (is_a_value it); cbn [negb]; intuition congruence.
Qed.
Lemma map_existsb {A B} (f : A -> B) (p : B -> bool) l : existsb p (List.map f l) = existsb (fun x => p (f x)) l.
Proof. induction l as [|x l IH]; [reflexivity|]. cbn. now rewrite IH. Qed.

(** a relation of one of the six operators of membership *)
Lemma holds_membership d r rest : membership (rel_op r) ->
  (is_negated (rel_op r) = true -> ex_operand (rel_expr r) = ON -> ex_modulus (rel_expr r) = None ->
     (forall rg, ~ In (RRange rg) (rel_list r)) \/ uts_f d = 0) ->
  existsb (shown (rel_expr r) d) (rel_list r) = existsb (item_in (uts_expr (rel_expr r) d)) (rel_list r) ->
  holds d (relation_parts r ++ rest) = uts_relation r d && holds d rest.
Proof.
  intros [M1 M2] N E. unfold relation_parts, uts_relation.
  assert (Pos : holds d (match List.map (checks false (rel_expr r)) (in_order (rel_list r)) with [c] => List.map One c | l => [Any l] end ++ rest)
                = existsb (item_in (uts_expr (rel_expr r) d)) (rel_list r) && holds d rest).
  { rewrite <- E, <- existsb_order. unfold shown. rewrite <- (map_existsb (checks false (rel_expr r)) (forallb (check_holds d))).
    destruct (in_order (rel_list r)) as [|it [|it' l]]; cbn [List.map]; [reflexivity| |reflexivity].
    rewrite holds_ones by apply checks_bounds. cbn [existsb]. now rewrite Bool.orb_false_r. }
  assert (Neg : is_negated (rel_op r) = true -> holds d (List.map One (flat_map (checks true (rel_expr r)) (in_order (rel_list r))) ++ rest)
                = negb (existsb (item_in (uts_expr (rel_expr r) d)) (rel_list r)) && holds d rest).
  { intro Ng. rewrite <- E, <- existsb_order.
    assert (F : forall it, In it (in_order (rel_list r)) -> forallb (check_holds d) (checks true (rel_expr r) it) = negb (shown (rel_expr r) d it)).
    { intros it I. apply checks_negated. intros O Md. destruct (N Ng O Md) as [K|K]; [left|now right].
      apply (proj1 (order_in it (rel_list r))) in I. destruct it as [rg|v]; [now destruct (K rg)|reflexivity]. }
    clear E Pos N. induction (in_order (rel_list r)) as [|it l IH]; [reflexivity|].
    cbn [flat_map existsb]. rewrite List.map_app, <- List.app_assoc, holds_ones by apply checks_bounds.
    rewrite IH by (intros it' I; apply F; now right). rewrite (F it) by now left.
    now rewrite Bool.negb_orb, Bool.andb_assoc. }
  destruct (rel_op r); auto; try congruence.
Qed.

(** ** Conditions whose code shows their meaning *)
(** for [within]: one range, and a modulus only where the code keeps the operand *)
Definition one_range (l : range_list) : Prop := exists rg, l = [RRange rg].
Definition clear (keeps : operand -> Prop) (p : relation -> Prop) (r : relation) : Prop :=
  match rel_op r with
  | OpWithin | OpNotWithin => one_range (rel_list r) /\ (ex_modulus (rel_expr r) = None \/ keeps (ex_operand (rel_expr r)))
  | _ => p r
  end /\ ex_modulus (rel_expr r) <> Some 0.
(** for all numbers, and for integers *)
Definition shows (r : relation) : Prop := clear (fun o => o = OI) faithful r.
Definition shows_on_integers (r : relation) : Prop := clear (fun o => o = OI \/ o = ON) faithful_on_integers r.

Lemma holds_within d r rest : rel_op r = OpWithin \/ rel_op r = OpNotWithin -> one_range (rel_list r) ->
  uts_expr (mkExpr (for_within (rel_expr r)) (ex_modulus (rel_expr r))) d = uts_expr (rel_expr r) d ->
  holds d (relation_parts r ++ rest) = uts_relation r d && holds d rest.
Proof.
  intros O (rg & L) E. unfold relation_parts, uts_relation. rewrite L. destruct rg as [lo hi].
  destruct O as [-> | ->]; cbn [bounds List.filter is_a_value negb List.app holds existsb check_holds];
    unfold bounded; rewrite E; cbn [lower_val upper_val item_within]; destruct (uts_expr (rel_expr r) d) as [a b]; rewrite Bool.orb_false_r;
    [apply Bool.andb_assoc|reflexivity].
Qed.
Lemma faithful_shown d r : proper d -> ex_modulus (rel_expr r) <> Some 0 -> faithful r ->
  forall it, In it (rel_list r) -> shown (rel_expr r) d it = item_in (uts_expr (rel_expr r) d) it.
Proof.
  intros P M F it I. unfold faithful in F. destruct (rel_expr r) as [o m]. cbn [ex_operand ex_modulus] in *.
  unfold shown. destruct it as [[lo hi]|v].
  - destruct o, m as [m|]; cbn [checks for_range range_modulus of_n ex_operand ex_modulus forallb check_holds lower_val upper_val];
      rewrite ?Bool.andb_true_r, ?Bool.xorb_false_l; try reflexivity.
    + rewrite Forall_forall in F. specialize (F _ I). cbn [dead lower_val upper_val] in F.
      assert (A : forall a b, 0 < b -> item_in (a, b) (RRange (mkRange lo hi)) = false).
      { intros a b B. cbn [item_in lower_val upper_val]. destruct (a mod b =? 0); [|reflexivity]. cbn [andb].
        destruct (N.leb_spec (lo * b) a), (N.leb_spec a (hi * b)); auto. exfalso. nia. }
      pose proof (den_pos d). unfold uts_expr. cbn [ex_operand ex_modulus uts_operand]. rewrite !A by lia. reflexivity.
    + unfold uts_expr. cbn [ex_operand ex_modulus uts_operand item_in lower_val upper_val].
      rewrite item_n_range by exact P. rewrite N.mod_1_r, !N.mul_1_r. cbn [N.eqb andb]. unfold uts_i. destruct (uts_f d =? 0), ((lo <=? d_int d) && (d_int d <=? hi)); reflexivity.
  - destruct o, m as [m|]; cbn [checks for_value of_n ex_operand ex_modulus forallb check_holds];
      rewrite ?Bool.andb_true_r, ?Bool.xorb_false_l; try reflexivity.
    rewrite Forall_forall in F. specialize (F _ I). cbn [dead] in F.
    assert (A : forall a b, 0 < b -> item_in (a mod (m * b), b) (RValue v) = false).
    { intros a b B. cbn [item_in]. apply N.eqb_neq. assert (m <> 0) by (intro K; apply M; now rewrite K). pose proof (N.mod_lt a (m * b) ltac:(nia)). nia. }
    pose proof (den_pos d). unfold uts_expr. cbn [ex_operand ex_modulus uts_operand]. rewrite !A by lia. reflexivity.
Qed.
Lemma existsb_ext_in {A} (p q : A -> bool) l : (forall x, In x l -> p x = q x) -> existsb p l = existsb q l.
Proof. induction l as [|x l IH]; [reflexivity|]. intro H. cbn. rewrite (H x (or_introl eq_refl)), IH; [reflexivity|]. intros y I. apply H. now right. Qed.
Lemma shows_right d r rest : proper d -> shows r -> holds d (relation_parts r ++ rest) = uts_relation r d && holds d rest.
Proof.
  intros P [H M].
  assert (Mem : membership (rel_op r) -> faithful r -> holds d (relation_parts r ++ rest) = uts_relation r d && holds d rest).
  { intros Mb F. apply holds_membership; [exact Mb| |].
    - intros Ng O Md. left. unfold faithful in F. rewrite O, Md in F. now apply F.
    - apply existsb_ext_in. now apply faithful_shown. }
  assert (Wi : rel_op r = OpWithin \/ rel_op r = OpNotWithin -> one_range (rel_list r) /\ (ex_modulus (rel_expr r) = None \/ ex_operand (rel_expr r) = OI) ->
    holds d (relation_parts r ++ rest) = uts_relation r d && holds d rest).
  { intros O [L K]. apply holds_within; auto. destruct (rel_expr r) as [o m]. unfold for_within. cbn [ex_operand ex_modulus] in *.
    destruct K as [->| ->]; [reflexivity|]. now destruct m. }
  unfold membership in Mem. destruct (rel_op r); try (apply Wi; auto; fail); apply Mem; auto; split; discriminate.
Qed.

(** ** Integers *)
Lemma integer_n x m : uts_expr (mkExpr ON m) (mkDecimal x []) = uts_expr (mkExpr OI m) (mkDecimal x []).
Proof.
  unfold uts_expr, uts_operand, uts_num, uts_den, uts_f, uts_v, uts_i. cbn [ex_operand ex_modulus d_int d_frac List.length frac_value].
  change (10 ^ N.of_nat 0) with 1. now rewrite N.mul_1_r, N.add_0_r.
Qed.
Lemma integer_shown x r : ex_modulus (rel_expr r) <> Some 0 -> faithful_on_integers r ->
  existsb (shown (rel_expr r) (mkDecimal x [])) (rel_list r) = existsb (item_in (uts_expr (rel_expr r) (mkDecimal x []))) (rel_list r).
Proof.
  intros M F. set (d := mkDecimal x []). unfold faithful_on_integers in F. destruct (rel_expr r) as [o m]. cbn [ex_operand ex_modulus] in *.
  assert (V : forall v, shown (mkExpr o m) d (RValue v) = item_in (uts_expr (mkExpr o m) d) (RValue v)).
  { intro v. unfold shown. destruct o, m as [m|]; cbn [checks for_value of_n ex_operand ex_modulus forallb check_holds];
      rewrite ?Bool.andb_true_r, ?Bool.xorb_false_l; try reflexivity. unfold d. now rewrite integer_n. }
  destruct o; try (destruct m as [m|]; apply existsb_ext_in; intros [[lo hi]|v] _; [|apply V| |apply V]; unfold shown;
    cbn [checks for_range range_modulus of_n ex_operand ex_modulus forallb check_holds lower_val upper_val];
      rewrite ?Bool.andb_true_r, ?Bool.xorb_false_l; reflexivity).
  destruct m as [m|].
  - assert (R : forall lo hi, shown (mkExpr ON (Some m)) d (RRange (mkRange lo hi)) = (lo <=? x) && (x <=? hi)).
    { intros lo hi. unfold shown. cbn [checks for_range range_modulus of_n ex_operand ex_modulus forallb check_holds lower_val upper_val].
      rewrite Bool.andb_true_r, Bool.xorb_false_l. unfold uts_expr, d. cbn [ex_operand ex_modulus uts_operand item_in uts_i d_int lower_val upper_val].
      now rewrite N.mod_1_r, !N.mul_1_r. }
    assert (E : forall it, item_in (uts_expr (mkExpr ON (Some m)) d) it = item_in (x mod m, 1) it).
    { intro it. unfold d. rewrite integer_n. unfold uts_expr. cbn [ex_operand ex_modulus uts_operand uts_i d_int]. now rewrite N.mul_1_r. }
    apply eq_true_iff_eq. rewrite !existsb_exists. split; intros (it & I & H).
    + destruct it as [[lo hi]|v]; [|exists (RValue v); now rewrite <- V].
      rewrite R in H. apply andb_prop in H as [H1 H2]. apply N.leb_le in H1, H2.
      exists (RValue (x mod m)). split; [apply (F _ x I); cbn; lia|]. rewrite E. cbn [item_in]. rewrite N.mul_1_r. apply N.eqb_refl.
    + destruct it as [[lo hi]|v]; [|exists (RValue v); now rewrite V].
      rewrite E in H. cbn [item_in lower_val upper_val] in H. rewrite !N.mul_1_r in H. apply andb_prop in H as [H H2]. apply andb_prop in H as [_ H1].
      apply N.leb_le in H1, H2. pose proof (F _ (x mod m) I ltac:(cbn; lia)) as J. rewrite N.mod_mod in J by (intro K; apply M; now rewrite K).
      exists (RValue (x mod m)). split; [exact J|]. rewrite V, E. cbn [item_in]. rewrite N.mul_1_r. apply N.eqb_refl.
  - apply existsb_ext_in. intros [[lo hi]|v] _; [|apply V]. unfold shown.
    cbn [checks for_range range_modulus of_n ex_operand ex_modulus forallb check_holds lower_val upper_val].
    rewrite !Bool.andb_true_r, !Bool.xorb_false_l. unfold d. rewrite integer_n. reflexivity.
Qed.
Lemma shows_right_int x r rest : shows_on_integers r ->
  holds (mkDecimal x []) (relation_parts r ++ rest) = uts_relation r (mkDecimal x []) && holds (mkDecimal x []) rest.
Proof.
  intros [H M].
  assert (Mem : membership (rel_op r) -> faithful_on_integers r ->
    holds (mkDecimal x []) (relation_parts r ++ rest) = uts_relation r (mkDecimal x []) && holds (mkDecimal x []) rest).
  { intros Mb F. apply holds_membership; [exact Mb|now right|now apply integer_shown]. }
  assert (Wi : rel_op r = OpWithin \/ rel_op r = OpNotWithin ->
    one_range (rel_list r) /\ (ex_modulus (rel_expr r) = None \/ ex_operand (rel_expr r) = OI \/ ex_operand (rel_expr r) = ON) ->
    holds (mkDecimal x []) (relation_parts r ++ rest) = uts_relation r (mkDecimal x []) && holds (mkDecimal x []) rest).
  { intros O [L K]. apply holds_within; auto. destruct (rel_expr r) as [o m]. unfold for_within. cbn [ex_operand ex_modulus] in *.
    destruct K as [->|[->| ->]]; [reflexivity|now destruct m|]. destruct m; [|reflexivity]. symmetry. apply integer_n. }
  unfold membership in Mem. destruct (rel_op r); try (apply Wi; auto; fail); apply Mem; auto; split; discriminate.
Qed.

(** ** Whole conditions *)
Definition all_clear (p : relation -> Prop) (c : condition) : Prop := Forall (Forall p) c.
Lemma holds_and d (p : relation -> Prop) : (forall r rest, p r -> holds d (relation_parts r ++ rest) = uts_relation r d && holds d rest) ->
  forall a, Forall p a -> holds d (flat_map relation_parts a) = uts_and a d.
Proof.
  intros R a A. induction A as [|r a P A IH]; [reflexivity|]. cbn [flat_map]. rewrite R by exact P. now rewrite IH.
Qed.
Lemma holds_condition d (p : relation -> Prop) : (forall r rest, p r -> holds d (relation_parts r ++ rest) = uts_relation r d && holds d rest) ->
  forall c, all_clear p c -> existsb (holds d) (parts c) = uts_condition c d.
Proof.
  intros R c A. unfold parts, uts_condition. induction A as [|a c P A IH]; [reflexivity|]. cbn [List.map existsb].
  now rewrite IH, (holds_and d p R a P).
Qed.
Lemma clear_ranges keeps p c : all_clear (clear keeps p) c -> lacks_ranges c = false.
Proof.
  intro S. apply Bool.not_true_iff_false. intro H. apply existsb_exists in H as (a & I & H). apply existsb_exists in H as (r & J & H).
  unfold all_clear in S. rewrite Forall_forall in S. specialize (S a I). rewrite Forall_forall in S. destruct (S r J) as (A & _).
  unfold lacks_range in H. destruct (rel_op r); try discriminate H; destruct A as ((rg & L) & _); rewrite L in H; discriminate H.
Qed.
Lemma C110_any_lemma c c' : no_gaps c -> no_gaps c' -> gen_pr c = gen_pr c' ->
  (all_clear shows c -> all_clear shows c' -> forall d, proper d -> uts_condition c d = uts_condition c' d) /\
  (all_clear shows_on_integers c -> all_clear shows_on_integers c' ->
   forall x, uts_condition c (mkDecimal x []) = uts_condition c' (mkDecimal x [])).
Proof.
  intros N N' E. split; intros A A'.
  - intros d P. assert (R : forall r rest, shows r -> holds d (relation_parts r ++ rest) = uts_relation r d && holds d rest)
      by (intros; now apply shows_right).
    rewrite <- (holds_condition d shows R c A), <- (holds_condition d shows R c' A').
    apply (C110_lemma c c') in E; [now rewrite E|exact N|now apply (clear_ranges _ _ c A)|exact N'|now apply (clear_ranges _ _ c' A')].
  - intro x. assert (R : forall r rest, shows_on_integers r -> holds (mkDecimal x []) (relation_parts r ++ rest) = uts_relation r (mkDecimal x []) && holds (mkDecimal x []) rest)
      by (intros; now apply shows_right_int).
    rewrite <- (holds_condition _ _ R c A), <- (holds_condition _ _ R c' A').
    apply (C110_lemma c c') in E; [now rewrite E|exact N|now apply (clear_ranges _ _ c A)|exact N'|now apply (clear_ranges _ _ c' A')].
Qed.
