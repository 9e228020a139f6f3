(** * Lemmas behind C79 *)
From Coq Require Import Lia ZifyBool ZifyN Floats.SpecFloat.
From Verif Require Import Base F64 Operands Ast LangId GenRs GenPr RustExpr PluralRules Tables Json Cldr Spec
  LangIdFacts ApiProps GenFacts GenMeaning Represents Conformance ConformanceProps WrongSpec.
Open Scope N_scope.

(** ** CLDR conditions as functions of [i], [v] and [f] *)
Definition reduced (m : option N) (x : N) : N := match m with None => x | Some m => x mod m end.
Definition x_in (x : N) (it : range_list_item) : bool :=
  match it with RValue k => x =? k | RRange r => (lower_val r <=? x) && (x <=? upper_val r) end.
Definition x_item (e : expression) (i v f : N) (it : range_list_item) : bool :=
  match ex_operand e with
  | ON => (f =? 0) && x_in (reduced (ex_modulus e) i) it
  | OI => x_in (reduced (ex_modulus e) i) it
  | OV => x_in (reduced (ex_modulus e) v) it
  | OF => x_in (reduced (ex_modulus e) f) it
  | _ => false
  end.
Definition x_relation (r : relation) (i v f : N) : bool :=
  match rel_op r with
  | OpIn | OpIs | OpEQ => existsb (x_item (rel_expr r) i v f) (rel_list r)
  | _ => negb (existsb (x_item (rel_expr r) i v f) (rel_list r))
  end.
Definition x_condition (c : condition) (i v f : N) : bool :=
  existsb (fun a => forallb (fun r => x_relation r i v f) a) c.
Definition x_plain (c : condition) : bool :=
  forallb (forallb (fun r =>
    match rel_op r with OpWithin | OpNotWithin => false | _ => true end &&
    match ex_operand (rel_expr r) with OW | OT => false | _ => true end &&
    match ex_modulus (rel_expr r) with Some m => 0 <? m | None => true end)) c.

Lemma existsb_ext_in {A} (p q : A -> bool) l : (forall x, In x l -> p x = q x) -> existsb p l = existsb q l.
Proof.
  induction l as [|a l IH]; intro H; [reflexivity|]. cbn. rewrite (H a (or_introl eq_refl)).
  f_equal. apply IH. intros x I. apply H. now right.
Qed.
Lemma forallb_ext_in {A} (p q : A -> bool) l : (forall x, In x l -> p x = q x) -> forallb p l = forallb q l.
Proof.
  induction l as [|a l IH]; intro H; [reflexivity|]. cbn. rewrite (H a (or_introl eq_refl)).
  f_equal. apply IH. intros x I. apply H. now right.
Qed.

Lemma frac_lt d : proper d -> uts_f d < uts_den d.
Proof. intro P. apply frac_value_lt, P. Qed.
Lemma scaled_item x b f k : f < b -> (x * b + f =? k * b) = (f =? 0) && (x =? k).
Proof. intro H. destruct (N.eqb_spec f 0); destruct (N.eqb_spec x k); cbn [andb]; [subst; lia| | |]; nia. Qed.
Lemma scaled_in x b f it : f < b -> item_in (x * b + f, b) it = (f =? 0) && x_in x it.
Proof.
  intro H. destruct it as [r|k]; cbn [item_in x_in].
  2: now apply scaled_item.
  - rewrite N.add_comm, N.mod_add, N.mod_small by lia.
    destruct (N.eqb_spec f 0) as [->|]; [|reflexivity]. cbn [andb]. rewrite N.add_0_l.
    assert (E : forall a c, (a * b <=? c * b) = (a <=? c)).
    { intros a c. destruct (N.leb_spec a c); [apply N.leb_le|apply N.leb_gt]; nia. }
    now rewrite !E.
Qed.
Lemma plain_in x it : item_in (x, 1) it = x_in x it.
Proof.
  assert (H := scaled_in x 1 0 it eq_refl). rewrite N.mul_1_r, N.add_0_r in H. exact H.
Qed.
Lemma x_item_ok e d it : proper d ->
  match ex_operand e with OW | OT => false | _ => true end = true ->
  match ex_modulus e with Some m => 0 <? m | None => true end = true ->
  item_in (uts_expr e d) it = x_item e (uts_i d) (uts_v d) (uts_f d) it.
Proof.
  intros P O M. destruct e as [o m]. unfold uts_expr, x_item. cbn [ex_operand ex_modulus] in *.
  destruct o; try discriminate; cbn [uts_operand].
  - pose proof (frac_lt d P) as F. destruct m as [m|]; cbn [reduced].
    + apply N.ltb_lt in M. pose proof (den_pos d) as D.
      replace (uts_num d mod (m * uts_den d)) with ((uts_i d mod m) * uts_den d + uts_f d).
      * now apply scaled_in.
      * unfold uts_num. fold (uts_i d). rewrite (N.div_mod (uts_i d) m) at 2 by lia.
        replace ((m * (uts_i d / m) + uts_i d mod m) * uts_den d + uts_f d)
          with ((uts_i d mod m * uts_den d + uts_f d) + (uts_i d / m) * (m * uts_den d)) by nia.
        rewrite N.mod_add by nia. symmetry. apply N.mod_small.
        pose proof (N.mod_lt (uts_i d) m). nia.
    + unfold uts_num. now apply scaled_in.
  - destruct m as [m|]; cbn [reduced]; rewrite ?N.mul_1_r; apply plain_in.
  - destruct m as [m|]; cbn [reduced]; rewrite ?N.mul_1_r; apply plain_in.
  - destruct m as [m|]; cbn [reduced]; rewrite ?N.mul_1_r; apply plain_in.
Qed.
Lemma x_condition_ok c d : proper d -> x_plain c = true ->
  uts_condition c d = x_condition c (uts_i d) (uts_v d) (uts_f d).
Proof.
  intros P X. unfold uts_condition, x_condition, uts_and. apply existsb_ext_in. intros a A.
  apply forallb_ext_in. intros r R. unfold x_plain in X. rewrite forallb_forall in X. specialize (X a A).
  rewrite forallb_forall in X. specialize (X r R). apply andb_prop in X as [X X3]. apply andb_prop in X as [X1 X2].
  assert (E : existsb (item_in (uts_expr (rel_expr r) d)) (rel_list r) =
              existsb (x_item (rel_expr r) (uts_i d) (uts_v d) (uts_f d)) (rel_list r)).
  { apply existsb_ext_in. intros it _. now apply x_item_ok. }
  unfold uts_relation, x_relation. destruct (rel_op r); try discriminate; now rewrite E.
Qed.

Definition x_select (rules : list (category * condition)) (i v f : N) (c : category) : bool :=
  if cat_eqb c OTHER then forallb (fun '(c', cond) => cat_eqb c' OTHER || negb (x_condition cond i v f)) rules
  else existsb (fun '(c', cond) => cat_eqb c' c && x_condition cond i v f) rules.
Definition x_rules (rules : list (category * condition)) : bool := forallb (fun '(_, cond) => x_plain cond) rules.
Lemma x_select_ok rules d c : proper d -> x_rules rules = true ->
  cldr_selectb rules d c = x_select rules (uts_i d) (uts_v d) (uts_f d) c.
Proof.
  intros P X. unfold x_rules in X. rewrite forallb_forall in X.
  unfold cldr_selectb, x_select. destruct (cat_eqb c OTHER).
  - apply forallb_ext_in. intros [c' cond] I. now rewrite x_condition_ok by (exact P || exact (X _ I)).
  - apply existsb_ext_in. intros [c' cond] I. now rewrite x_condition_ok by (exact P || exact (X _ I)).
Qed.

(** ** The closures as functions of [i], [v] and [f] *)
Definition y_num (x : num) (i v f : N) : option N :=
  match x with
  | NField OI => Some i | NField OV => Some v | NField OF => Some f
  | NMod OI m => if m =? 0 then None else Some (i mod m)
  | NMod OV m => if m =? 0 then None else Some (v mod m)
  | NMod OF m => if m =? 0 then None else Some (f mod m)
  | _ => None
  end.
Fixpoint y_expr (e : bexpr) (i v f : N) : option bool :=
  match e with
  | BCmpNL (NField ON) CEq (LFloat k) => if k <? 2 ^ 53 then Some ((f =? 0) && (i =? k)) else None
  | BCmpNL (NField ON) CNe (LFloat k) => if k <? 2 ^ 53 then Some (negb ((f =? 0) && (i =? k))) else None
  | BCmpNL x CEq (LInt k) =>
      if k <=? u64_max then match y_num x i v f with Some n => Some (n =? k) | None => None end else None
  | BCmpNL x CNe (LInt k) =>
      if k <=? u64_max then match y_num x i v f with Some n => Some (negb (n =? k)) | None => None end else None
  | BContains lo hi x =>
      if (lo <=? u64_max) && (hi <=? u64_max)
      then match y_num x i v f with Some n => Some ((lo <=? n) && (n <=? hi)) | None => None end else None
  | BNot b => match y_expr b i v f with Some x => Some (negb x) | None => None end
  | BAnd a b =>
      match y_expr a i v f, y_expr b i v f with Some x, Some y => Some (x && y) | _, _ => None end
  | BOr a b =>
      match y_expr a i v f, y_expr b i v f with Some x, Some y => Some (x || y) | _, _ => None end
  | _ => None
  end.
Fixpoint y_arms (arms : list (bexpr * category)) (els : category) (i v f : N) : option category :=
  match arms with
  | [] => Some els
  | (e, c) :: r => match y_expr e i v f, y_arms r els i v f with
                   | Some x, Some c' => Some (if x : bool then c else c')
                   | _, _ => None
                   end
  end.

Section Code.
  Variables (po : operands) (d : decimal).
  Hypothesis (Ri : op_i po = uts_i d) (Rv : op_v po = uts_v d) (Rf : op_f po = uts_f d).
  Hypothesis n_eq : forall k, k < 2 ^ 53 -> SFeqb (op_n po) (f64_of_N k) = (uts_f d =? 0) && (uts_i d =? k).

  Lemma y_num_ok x n : y_num x (uts_i d) (uts_v d) (uts_f d) = Some n -> is_float x = false /\ eval_int x po = Ok n.
  Proof.
    destruct x as [o|o m]; destruct o; cbn [y_num]; intro H; try discriminate;
      try (destruct (m =? 0) eqn:M; [discriminate|]); injection H as <-; split; try reflexivity;
      cbn [eval_int int_field unwrap rbind]; rewrite ?Ri, ?Rv, ?Rf, ?M; reflexivity.
  Qed.
  Lemma y_expr_ok e b : y_expr e (uts_i d) (uts_v d) (uts_f d) = Some b -> eval e po = Ok b.
  Proof.
    revert b. induction e as [x op l|l op x|lo hi x|e IH|e1 IH1 e2 IH2|e1 IH1 e2 IH2]; intros b H.
    - destruct l as [k|k].
      + assert (K : k <= u64_max /\ exists n, y_num x (uts_i d) (uts_v d) (uts_f d) = Some n /\ b = cmp_int op n k).
        { destruct op; cbn [y_expr] in H; try (destruct x as [[]|[]]; discriminate).
          all: match goal with |- context [cmp_int ?o _ _] => assert (H' : (if k <=? u64_max then match y_num x (uts_i d) (uts_v d) (uts_f d) with
            | Some n => Some (cmp_int o n k) | None => None end else None) = Some b)
            by (destruct x as [[]|[]]; exact H || discriminate H) end; clear H.
          all: destruct (N.leb_spec k u64_max); [|discriminate];
            destruct (y_num x _ _ _); [|discriminate]; injection H' as <-; split; eauto. }
        destruct K as (K & n & Y & ->). apply y_num_ok in Y as [F E].
        cbn [eval]. rewrite F. cbn [lit_int]. apply N.leb_le in K. rewrite K. cbn [rbind]. now rewrite E.
      + destruct x as [[]|[]]; destruct op; cbn [y_expr] in H; try discriminate;
          destruct (N.ltb_spec k (2 ^ 53)) as [K|]; try discriminate; injection H as <-;
          cbn [eval is_float lit_float rbind cmp_float]; now rewrite n_eq.
    - cbn [y_expr] in H. discriminate.
    - cbn [y_expr] in H. destruct ((lo <=? u64_max) && (hi <=? u64_max)) eqn:K; [|discriminate].
      apply andb_prop in K as [K1 K2]. destruct (y_num x _ _ _) as [n|] eqn:Y; [|discriminate].
      injection H as <-. apply y_num_ok in Y as [F E]. cbn [eval lit_int]. rewrite K1, K2. cbn [rbind]. now rewrite E.
    - cbn [y_expr] in H. destruct (y_expr e _ _ _) as [x|]; [|discriminate]. injection H as <-.
      cbn [eval]. now rewrite (IH x eq_refl).
    - cbn [y_expr] in H. destruct (y_expr e1 _ _ _) as [x|]; [|discriminate].
      destruct (y_expr e2 _ _ _) as [y|]; [|discriminate]. injection H as <-.
      cbn [eval]. rewrite (IH1 x eq_refl). cbn [rbind]. destruct x; [exact (IH2 y eq_refl)|reflexivity].
    - cbn [y_expr] in H. destruct (y_expr e1 _ _ _) as [x|]; [|discriminate].
      destruct (y_expr e2 _ _ _) as [y|]; [|discriminate]. injection H as <-.
      cbn [eval]. rewrite (IH1 x eq_refl). cbn [rbind]. destruct x; [reflexivity|exact (IH2 y eq_refl)].
  Qed.
  Lemma y_arms_ok arms els c : y_arms arms els (uts_i d) (uts_v d) (uts_f d) = Some c -> eval_arms arms els po = Ok c.
  Proof.
    revert c. induction arms as [|[e k] arms IH]; intros c H; cbn [y_arms] in H; [injection H as <-; reflexivity|].
    destruct (y_expr e _ _ _) as [x|] eqn:Y; [|discriminate].
    destruct (y_arms arms els _ _ _) as [c'|]; [|discriminate]. injection H as <-.
    cbn [eval_arms]. rewrite (y_expr_ok _ _ Y). cbn [rbind]. destruct x; [reflexivity|exact (IH c' eq_refl)].
  Qed.
End Code.
Lemma n_eq_represents po d k : represents po d -> proper d -> k < 2 ^ 53 -> SFeqb (op_n po) (f64_of_N k) = (uts_f d =? 0) && (uts_i d =? k).
Proof.
  intros R P K. rewrite (rp_eq _ _ R k K). unfold uts_num. apply scaled_item, frac_lt, P.
Qed.

(** ** One locale *)
Definition exactly (b : body) (rules : list (category * condition)) (wrong : N -> N -> N -> bool) : Prop :=
  forall i v f, (v = 0 -> f = 0) ->
  exists c, y_arms (b_arms b) (b_else b) i v f = Some c /\ x_select rules i v f c = negb (wrong i v f).

Definition find_body (t : pr_type) (id : langid) : option body :=
  option_map snd (List.find (fun e => langid_eqb id (fst e)) (prs t)).

Definition settled (t : pr_type) (id : langid) (wrong : N -> N -> N -> bool) : Prop :=
  exists b rules, find_body t id = Some b /\ find_rules t id = Some rules /\ x_rules rules = true /\
    exactly b rules wrong.

(** the integer part and the fraction digits by their last two digits *)
Lemma digits_of x : exists b a u,
  a < 10 /\ u < 10 /\ x = 100 * b + 10 * a + u /\ x mod 10 = u /\ x mod 100 = 10 * a + u.
Proof.
  exists (x / 100), ((x / 10) mod 10), (x mod 10).
  pose proof (N.div_mod x 10 ltac:(discriminate)). pose proof (N.div_mod (x / 10) 10 ltac:(discriminate)).
  pose proof (N.mod_lt x 10 ltac:(discriminate)). pose proof (N.mod_lt (x / 10) 10 ltac:(discriminate)).
  rewrite N.div_div in * by discriminate. change (10 * 10) with 100 in *.
  pose proof (N.div_mod x 100 ltac:(discriminate)). pose proof (N.mod_lt x 100 ltac:(discriminate)).
  repeat split; lia.
Qed.
Lemma ten_cases u : u < 10 ->
  u = 0 \/ u = 1 \/ u = 2 \/ u = 3 \/ u = 4 \/ u = 5 \/ u = 6 \/ u = 7 \/ u = 8 \/ u = 9.
Proof. lia. Qed.
Lemma million x : x mod 1000000 = 0 -> x mod 10 = 0 /\ x mod 100 = 0.
Proof.
  intro H. rewrite (N.div_mod x 1000000 ltac:(discriminate)), H, N.add_0_r.
  split; [replace 1000000 with (100000 * 10) by reflexivity|replace 1000000 with (10000 * 100) by reflexivity];
    rewrite N.mul_shuffle0; apply N.mod_mul; discriminate.
Qed.

(** a concrete closure and its rules, as an equation between booleans *)
Ltac open_case :=
  let i := fresh "i" in let v := fresh "v" in let f := fresh "f" in let H := fresh "H" in
  unfold settled;
  match goal with |- exists b rules, find_body ?t ?id = _ /\ _ =>
    let b := eval vm_compute in (find_body t id) in
    let r := eval vm_compute in (find_rules t id) in
    match b with Some ?b => match r with Some ?r =>
      exists b, r; split; [vm_compute; reflexivity|]; split; [vm_compute; reflexivity|]; split; [vm_compute; reflexivity|]
    end end
  end;
  intros i v f H; cbv -[N.modulo N.eqb N.leb N.ltb andb orb negb]; eexists; split; [reflexivity|].
Ltac split_case :=
  repeat match goal with
  | |- context [if ?b then _ else _] =>
      lazymatch b with context [if _ then _ else _] => fail | _ => destruct b eqn:? end
  end; cbn [andb orb negb] in *; rewrite ?Bool.orb_false_r, ?Bool.andb_true_r.
Ltac last_digits x :=
  let b := fresh "b" in let a := fresh "a" in let u := fresh "u" in
  let A := fresh "A" in let U := fresh "U" in let I := fresh "I" in let E := fresh "E" in let E' := fresh "E" in
  destruct (digits_of x) as (b & a & u & A & U & I & E & E'); rewrite ?E, ?E' in *; clear E E'.

Lemma mod_of_mod x m k : m <> 0 -> k <> 0 -> (x mod (m * k)) mod m = x mod m.
Proof.
  intros M K. rewrite N.mod_mul_r, (N.mul_comm m (_ mod k)), N.mod_add by assumption.
  now apply N.mod_mod.
Qed.
Lemma twenty x : exists k, k < 5 /\ x mod 20 < 20 /\ x mod 100 = 20 * k + x mod 20.
Proof.
  exists ((x mod 100) / 20). assert (E := mod_of_mod x 20 5 ltac:(discriminate) ltac:(discriminate)). change (20 * 5) with 100 in E.
  pose proof (N.div_mod (x mod 100) 20 ltac:(discriminate)). rewrite E in *.
  pose proof (N.mod_lt x 20 ltac:(discriminate)). pose proof (N.mod_lt x 100 ltac:(discriminate)). lia.
Qed.
Lemma five_left x k : k < 20 -> forall k2 k3 k4 k5, k2 = k + 20 -> k3 = k + 40 -> k4 = k + 60 -> k5 = k + 80 ->
  (x mod 100 =? k) || (x mod 100 =? k2) || (x mod 100 =? k3) || (x mod 100 =? k4) || (x mod 100 =? k5) = (x mod 20 =? k).
Proof. intros. destruct (twenty x) as (q & Q & L & ->). lia. Qed.
Lemma five_right x k : k < 20 -> forall k2 k3 k4 k5, k2 = k + 20 -> k3 = k + 40 -> k4 = k + 60 -> k5 = k + 80 ->
  (x mod 100 =? k) || ((x mod 100 =? k2) || ((x mod 100 =? k3) || ((x mod 100 =? k4) || (x mod 100 =? k5)))) = (x mod 20 =? k).
Proof. intros. destruct (twenty x) as (q & Q & L & ->). lia. Qed.
Lemma cardinal_kw : settled CARDINAL (lang "kw") wrong_kw.
Proof.
  open_case.
  assert (K1 : i mod 1000 = 0 -> i mod 20 = 0).
  { intro K. assert (E := mod_of_mod i 20 50 ltac:(discriminate) ltac:(discriminate)). change (20 * 50) with 1000 in E.
    rewrite K in E. now symmetry. }
  assert (K2 : i mod 1000000 = 100000 -> i mod 100000 = 0 /\ i mod 1000 = 0).
  { intro K. assert (E := mod_of_mod i 100000 10 ltac:(discriminate) ltac:(discriminate)). change (100000 * 10) with 1000000 in E.
    rewrite K in E. split; [now symmetry|]. 
    assert (E' := mod_of_mod i 1000 1000 ltac:(discriminate) ltac:(discriminate)). change (1000 * 1000) with 1000000 in E'.
    rewrite K in E'. now symmetry. }
  assert (K3 : i <= 20000 -> i mod 100000 = i) by (intro; apply N.mod_small; lia).
  destruct (f =? 0) eqn:F0; cbn [andb orb negb]; rewrite ?Bool.orb_false_r, ?Bool.andb_true_r;
  rewrite ?five_left, ?five_right by reflexivity.
  all: split_case; lia.
Qed.
Lemma ordinal_kw : settled ORDINAL (lang "kw") wrong_kw_ordinal.
Proof. open_case. destruct (twenty i) as (q & Q & L & EQ). rewrite ?EQ.
  destruct (f =? 0) eqn:F0; cbn [andb orb negb]. all: split_case; lia.
Qed.
Lemma cardinal_ar : settled CARDINAL (lang "ar") wrong_ar.
Proof.
  open_case. last_digits i. destruct (f =? 0) eqn:F0; split_case; lia.
Qed.
Lemma cardinal_ars : settled CARDINAL (lang "ars") wrong_ar.
Proof.
  open_case. last_digits i. destruct (f =? 0) eqn:F0; split_case; lia.
Qed.
Lemma cardinal_be : settled CARDINAL (lang "be") wrong_be.
Proof.
  open_case. last_digits i. destruct (f =? 0) eqn:F0; split_case; lia.
Qed.
Lemma cardinal_br : settled CARDINAL (lang "br") wrong_br.
Proof.
  open_case. pose proof (million i) as MI. last_digits i. destruct (f =? 0) eqn:F0; split_case;
    (destruct (ten_cases u U) as [->|[->|[->|[->|[->|[->|[->|[->|[->| ->]]]]]]]]]; lia).
Qed.
Lemma cardinal_lt : settled CARDINAL (lang "lt") wrong_lt.
Proof.
  open_case. last_digits i. destruct (f =? 0) eqn:F0; split_case; lia.
Qed.
Lemma cardinal_lv : settled CARDINAL (lang "lv") wrong_lv.
Proof.
  open_case. last_digits i. destruct (f =? 0) eqn:F0.
  - apply N.eqb_eq in F0. subst f. change (0 mod 100) with 0. change (0 mod 10) with 0. split_case; lia.
  - assert (O : (f mod 100 =? 11) = true -> (f mod 10 =? 1) = true) by (clear; last_digits f; lia).
    destruct (f mod 10 =? 1), (f mod 100 =? 11), (v =? 2); try (specialize (O eq_refl); discriminate);
      destruct ((11 <=? f mod 100) && (f mod 100 <=? 19)); cbn [andb orb negb]; split_case; lia.
Qed.
Lemma cardinal_mo : settled CARDINAL (lang "mo") wrong_ro.
Proof.
  open_case. last_digits i. destruct (f =? 0) eqn:F0; split_case; lia.
Qed.
Lemma cardinal_mt : settled CARDINAL (lang "mt") wrong_mt.
Proof.
  open_case. last_digits i. destruct (f =? 0) eqn:F0; split_case; lia.
Qed.
Lemma cardinal_prg : settled CARDINAL (lang "prg") wrong_lv.
Proof.
  open_case. last_digits i. destruct (f =? 0) eqn:F0.
  - apply N.eqb_eq in F0. subst f. change (0 mod 100) with 0. change (0 mod 10) with 0. split_case; lia.
  - assert (O : (f mod 100 =? 11) = true -> (f mod 10 =? 1) = true) by (clear; last_digits f; lia).
    destruct (f mod 10 =? 1), (f mod 100 =? 11), (v =? 2); try (specialize (O eq_refl); discriminate);
      destruct ((11 <=? f mod 100) && (f mod 100 <=? 19)); cbn [andb orb negb]; split_case; lia.
Qed.
Lemma cardinal_ro : settled CARDINAL (lang "ro") wrong_ro.
Proof.
  open_case. last_digits i. destruct (f =? 0) eqn:F0; split_case; lia.
Qed.
Lemma ordinal_be : settled ORDINAL (lang "be") (only_part (fun i => among (i mod 10) [2; 3] && negb (among (i mod 100) [12; 13]))).
Proof.
  open_case. last_digits i. destruct (f =? 0) eqn:F0; split_case; lia.
Qed.
Lemma ordinal_en : settled ORDINAL (lang "en") (only_part (fun i => among (i mod 10) [1; 2; 3] && negb (among (i mod 100) [11; 12; 13]))).
Proof.
  open_case. last_digits i. destruct (f =? 0) eqn:F0; split_case; lia.
Qed.
Lemma ordinal_kk : settled ORDINAL (lang "kk") (only_part (fun i => among (i mod 10) [0; 6; 9])).
Proof.
  open_case. last_digits i. destruct (f =? 0) eqn:F0; split_case; lia.
Qed.
Lemma ordinal_sq : settled ORDINAL (lang "sq") (only_part (fun i => (i mod 10 =? 4) && negb (i mod 100 =? 14))).
Proof.
  open_case. last_digits i. destruct (f =? 0) eqn:F0; split_case; lia.
Qed.
Lemma ordinal_sv : settled ORDINAL (lang "sv") (only_part (fun i => among (i mod 10) [1; 2] && negb (among (i mod 100) [11; 12]))).
Proof.
  open_case. last_digits i. destruct (f =? 0) eqn:F0; split_case; lia.
Qed.
Lemma ordinal_tk : settled ORDINAL (lang "tk") (only_part (fun i => among (i mod 10) [6; 9])).
Proof.
  open_case. last_digits i. destruct (f =? 0) eqn:F0; split_case; lia.
Qed.
Lemma ordinal_uk : settled ORDINAL (lang "uk") (only_part (fun i => (i mod 10 =? 3) && negb (i mod 100 =? 13))).
Proof.
  open_case. last_digits i. destruct (f =? 0) eqn:F0; split_case; lia.
Qed.

Lemma table_settled t id wrong : In (id, wrong) (wrong_table t) -> settled t id wrong.
Proof.
  destruct t; intro H; cbn [wrong_table In] in H;
    repeat (destruct H as [H|H]; [injection H as <- <-|]); try destruct H.
  - exact cardinal_ar.
  - exact cardinal_ars.
  - exact cardinal_be.
  - exact cardinal_br.
  - exact cardinal_kw.
  - exact cardinal_lt.
  - exact cardinal_lv.
  - exact cardinal_mo.
  - exact cardinal_mt.
  - exact cardinal_prg.
  - exact cardinal_ro.
  - exact ordinal_kw.
  - exact ordinal_be.
  - exact ordinal_en.
  - exact ordinal_kk.
  - exact ordinal_sq.
  - exact ordinal_sv.
  - exact ordinal_tk.
  - exact ordinal_uk.
Qed.

(** ** All locales *)
Lemma find_body_in t id b : find_body t id = Some b -> In (id, b) (prs t).
Proof.
  unfold find_body. destruct (List.find _ (prs t)) as [[l x]|] eqn:F; [|discriminate].
  cbn. intro H. injection H as <-. apply List.find_some in F as [I E]. cbn in E.
  apply langid_eqb_eq in E. now subst.
Qed.
Definition listed (t : pr_type) : bool :=
  forallb (fun id => existsb (fun e => langid_eqb id (fst e)) (wrong_table t)) (integer_wrong t ++ fraction_wrong t).
Lemma listed_true t : listed t = true. Proof. destruct t; vm_compute; reflexivity. Qed.
Lemma unlisted t id : List.find (fun e => langid_eqb id (fst e)) (wrong_table t) = None ->
  ~ In id (integer_wrong t) /\ ~ In id (fraction_wrong t).
Proof.
  intro F. assert (K : ~ In id (integer_wrong t ++ fraction_wrong t)).
  { intro I. pose proof (listed_true t) as L. unfold listed in L. rewrite forallb_forall in L.
    specialize (L id I). apply existsb_exists in L as (e & J & E).
    pose proof (List.find_none _ _ F e J) as Q. cbn beta in Q. congruence. }
  split; intro I; apply K, in_or_app; auto.
Qed.

Lemma wrong_exact how id t pr w x po d :
  create how id t = Ok pr -> to_operands w x = Ok po -> represents po d -> proper d ->
  exists rules c, In (id, rules) (cldr t) /\ select w pr x = Ok c /\
    (cldr_select rules d c <-> wrong_number t id d = false).
Proof.
  intros C T R P. unfold wrong_number.
  destruct (List.find (fun e => langid_eqb id (fst e)) (wrong_table t)) as [[l wrong]|] eqn:F.
  - apply List.find_some in F as [I E]. cbn in E. apply langid_eqb_eq in E. subst l.
    destruct (table_settled t id wrong I) as (b & rules & B & K & X & Z).
    apply find_body_in in B. apply C22_lemma in C as [_ U]. specialize (U b B). subst b.
    destruct (Z (uts_i d) (uts_v d) (uts_f d) (uts_v_0 d)) as (c & Y & S).
    exists rules, c. split; [now apply find_rules_in|]. split.
    + unfold select. rewrite T. exact (y_arms_ok po d (rp_i _ _ R) (rp_v _ _ R) (rp_f _ _ R) (fun k => n_eq_represents po d k R P) _ _ _ Y).
    + rewrite <- cldr_selectb_iff, (x_select_ok _ _ _ P X), S. destruct (wrong _ _ _); split; easy.
  - destruct (unlisted t id F) as [NI NF].
    destruct (follows how id t pr w x po d C T R P NI (fun H => False_ind _ (NF H))) as (rules & c & I & S & K).
    exists rules, c. tauto.
Qed.
Lemma wrong_exact_str how id t pr w s d :
  create how id t = Ok pr -> numeral s d -> small d ->
  exists rules c, In (id, rules) (cldr t) /\ select w pr (InStr s) = Ok c /\
    (cldr_select rules d c <-> wrong_number t id d = false).
Proof.
  intros C N S. destruct (numeral_represents s d N S) as (po & E & R).
  exact (wrong_exact how id t pr w (InStr s) po d C E R (numeral_proper s d N)).
Qed.
Lemma wrong_exact_unsigned how id t pr w x :
  create how id t = Ok pr -> x < 2 ^ 64 ->
  exists rules c, In (id, rules) (cldr t) /\ select w pr (InUnsigned x) = Ok c /\
    (cldr_select rules (mkDecimal x []) c <-> wrong_number t id (mkDecimal x []) = false).
Proof.
  intros C X.
  exact (wrong_exact how id t pr w (InUnsigned x) _ _ C eq_refl (unsigned_represents x X) (Forall_nil _)).
Qed.
Lemma wrong_exact_signed how id t pr z :
  create how id t = Ok pr -> (Z.abs z < 2 ^ 63)%Z ->
  exists rules c, In (id, rules) (cldr t) /\ select W64 pr (InSigned z) = Ok c /\
    (cldr_select rules (mkDecimal (Z.to_N (Z.abs z)) []) c <->
     wrong_number t id (mkDecimal (Z.to_N (Z.abs z)) []) = false).
Proof.
  intros C X.
  apply (wrong_exact how id t pr W64 (InSigned z) (operands_from_unsigned (Z.to_N (Z.abs z)))); auto.
  - cbn [to_operands]. unfold operands_from_signed. cbn [isize_bits]. change (64 - 1)%Z with 63%Z.
    rewrite OperandsProps.wrap_small by (change (64 - 1)%Z with 63%Z; lia). cbv zeta.
    destruct (Z.eqb_spec z (- 2 ^ 63)); [lia|]. reflexivity.
  - apply unsigned_represents. lia.
  - constructor.
Qed.
