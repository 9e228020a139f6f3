(** * Equality of operands *)
From Coq Require Import Floats.SpecFloat Lia.
From Verif Require Import Base F64 Operands Ast RustExpr PluralRules.
Open Scope N_scope.

(** operands.rs:57, the derived [PartialEq]: field by field, floats as [f64] *)
Definition operands_eqb (a b : operands) : bool :=
  SFeqb (op_n a) (op_n b) && (op_i a =? op_i b) && (op_v a =? op_v b) &&
  (op_w a =? op_w b) && (op_f a =? op_f b) && (op_t a =? op_t b).

(** ** Facts *)
Definition zero (x : spec_float) : Prop := exists s, x = S754_zero s.
Lemma SFeqb_cases a b : SFeqb a b = true <-> (a = b /\ a <> S754_nan) \/ (zero a /\ zero b).
Proof.
  unfold SFeqb. split.
  - destruct a as [s|s| |s m e], b as [s'|s'| |s' m' e']; cbn; try discriminate;
      try (destruct s; discriminate); try (destruct s'; discriminate).
    + right. split; eexists; reflexivity.
    + destruct s, s'; try discriminate; left; split; easy.
    + destruct s, s'; try discriminate; destruct (Z.compare e e') eqn:E; try discriminate;
        apply Z.compare_eq in E; destruct (Pos.compare_cont Eq m m') eqn:P; try discriminate;
        change (Pos.compare m m' = Eq) in P; apply Pos.compare_eq in P; subst; left; split; easy.
  - intros [[-> N]|[[s ->] [s' ->]]]; [|reflexivity]. destruct b as [s|s| |s m e]; cbn; try easy; destruct s; try easy.
    all: rewrite Z.compare_refl; change (Pos.compare_cont Eq m m) with (Pos.compare m m); now rewrite Pos.compare_refl.
Qed.
Lemma SFcompare_zero_l s s' x : SFcompare (S754_zero s) x = SFcompare (S754_zero s') x.
Proof. destruct x as [| |  |[] ? ?]; reflexivity. Qed.
Lemma SFcompare_zero_r s s' x : SFcompare x (S754_zero s) = SFcompare x (S754_zero s').
Proof. destruct x as [| |  |[] ? ?]; reflexivity. Qed.
Lemma cmp_float_eq_l op a b k : SFeqb a b = true -> cmp_float op a k = cmp_float op b k.
Proof.
  intros H. apply SFeqb_cases in H as [[-> _]|[[s ->] [s' ->]]]; [reflexivity|].
  destruct op; cbn; unfold SFeqb, SFleb, SFltb; rewrite ?(SFcompare_zero_l s s'), ?(SFcompare_zero_r s s'); reflexivity.
Qed.
Lemma cmp_float_eq_r op a b k : SFeqb a b = true -> cmp_float op k a = cmp_float op k b.
Proof.
  intros H. apply SFeqb_cases in H as [[-> _]|[[s ->] [s' ->]]]; [reflexivity|].
  destruct op; cbn; unfold SFeqb, SFleb, SFltb; rewrite ?(SFcompare_zero_l s s'), ?(SFcompare_zero_r s s'); reflexivity.
Qed.

Lemma operands_eqb_iff a b : operands_eqb a b = true <->
  ((op_n a = op_n b /\ op_n a <> S754_nan) \/ (zero (op_n a) /\ zero (op_n b))) /\
  op_i a = op_i b /\ op_v a = op_v b /\ op_w a = op_w b /\ op_f a = op_f b /\ op_t a = op_t b.
Proof. unfold operands_eqb. rewrite !andb_true_iff, !N.eqb_eq, SFeqb_cases. tauto. Qed.

Lemma eval_int_eq x a b : operands_eqb a b = true -> eval_int x a = eval_int x b.
Proof.
  intros H. apply operands_eqb_iff in H as (_ & I & V & W & F & T).
  destruct x as [[]|[] m]; cbn; now rewrite ?I, ?V, ?W, ?F, ?T.
Qed.
Lemma eval_eq e a b : operands_eqb a b = true -> eval e a = eval e b.
Proof.
  intros H. assert (S : SFeqb (op_n a) (op_n b) = true) by (unfold operands_eqb in H; now rewrite !andb_true_iff in H).
  induction e as [x op l|l op x|lo hi x|e IH|e1 IH1 e2 IH2|e1 IH1 e2 IH2]; cbn [eval].
  - destruct (is_float x); [|now rewrite (eval_int_eq x a b H)].
    destruct (lit_float l); [|reflexivity|reflexivity]. cbn. now rewrite (cmp_float_eq_l op _ _ _ S).
  - destruct (is_float x); [|now rewrite (eval_int_eq x a b H)].
    destruct (lit_float l); [|reflexivity|reflexivity]. cbn. now rewrite (cmp_float_eq_r op _ _ _ S).
  - now rewrite (eval_int_eq x a b H).
  - now rewrite IH.
  - now rewrite IH1, IH2.
  - now rewrite IH1, IH2.
Qed.
Lemma eval_body_eq f a b : operands_eqb a b = true -> eval_body f a = eval_body f b.
Proof.
  intros H. unfold eval_body. induction (b_arms f) as [|[e c] l IH]; cbn [eval_arms]; [reflexivity|].
  now rewrite (eval_eq e a b H), IH.
Qed.

Lemma C77_refl_lemma po : operands_eqb po po = true <-> op_n po <> S754_nan.
Proof.
  rewrite operands_eqb_iff. split.
  - intros [[[_ N]|[[s E] _]] _]; [exact N|now rewrite E].
  - intros N. repeat split; auto.
Qed.
Lemma zero_not_nan x : zero x -> x <> S754_nan.
Proof. intros [s ->]. discriminate. Qed.
Lemma C77_sym_lemma a b : operands_eqb a b = operands_eqb b a.
Proof.
  apply eq_true_iff_eq. rewrite !operands_eqb_iff. intuition congruence.
Qed.
Lemma C77_trans_lemma a b c : operands_eqb a b = true -> operands_eqb b c = true -> operands_eqb a c = true.
Proof.
  rewrite !operands_eqb_iff. intros (X & P) (Y & Q). split; [|intuition congruence].
  destruct X as [[E N]|[Z Z']], Y as [[E' N']|[Y Y']].
  - left. split; congruence.
  - right. rewrite E. auto.
  - right. rewrite <- E'. auto.
  - auto.
Qed.
Lemma C77_select_lemma w pr a b : operands_eqb a b = true -> select w pr (InOps a) = select w pr (InOps b).
Proof. intros H. unfold select. cbn [to_operands]. now apply eval_body_eq. Qed.
Lemma C77_lemma a b : operands_eqb a b = true <->
  ((op_n a = op_n b /\ op_n a <> S754_nan) \/ (exists s s', op_n a = S754_zero s /\ op_n b = S754_zero s')) /\
  op_i a = op_i b /\ op_v a = op_v b /\ op_w a = op_w b /\ op_f a = op_f b /\ op_t a = op_t b.
Proof.
  rewrite operands_eqb_iff. split; intros [[H|H] K]; (split; [|exact K]); auto; right.
  - destruct H as [[s E] [s' E']]. eauto.
  - destruct H as (s & s' & E & E'). split; eexists; eassumption.
Qed.
