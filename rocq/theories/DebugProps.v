(** * Lemmas behind C119 *)
From Coq Require Import Lia Reals Floats.SpecFloat ZifyBool ZifyN ZifyNat.
From Flocq Require Import Core IEEE754.BinarySingleNaN.
From Verif Require Import Base F64 SpecR F64Facts Shortest Operands Ast GenRs Spec DigitFacts OperandsFacts OperandsProps OperandsEq FloatProps ExpSpec ExpProps Debug.
Import ListNotations.
Open Scope N_scope.

(** ** Floats *)
Lemma parse_number_full i f es d : digits i -> digits f -> i ++ f <> [] -> sign_opt es -> digits d -> d <> [] ->
  parse_number (i ++ 46 :: f ++ 101 :: es ++ d) = Some (dval (i ++ f), (- Z.of_nat (List.length f) + with_sign es (Z.of_N (exp_acc d)))%Z).
Proof.
  intros Di Df Ne Se Dd Nd. unfold parse_number.
  rewrite span_app; [|now apply digits_forallb|intros c r K; inversion K; subst; reflexivity].
  cbn [N.eqb Pos.eqb].
  rewrite span_app; [|now apply digits_forallb|intros c r K; inversion K; subst; reflexivity].
  destruct (i ++ f) as [|c r] eqn:K; [easy|].
  cbn [N.eqb Pos.eqb orb]. now rewrite (parse_scientific_value es d Se Dd Nd), digits_value_dval.
Qed.
Lemma parse_number_whole i es d : digits i -> i <> [] -> sign_opt es -> digits d -> d <> [] ->
  parse_number (i ++ 101 :: es ++ d) = Some (dval i, with_sign es (Z.of_N (exp_acc d))).
Proof.
  intros Di Ne Se Dd Nd. unfold parse_number.
  rewrite span_app; [|now apply digits_forallb|intros c r K; inversion K; subst; reflexivity].
  cbn [N.eqb Pos.eqb]. rewrite app_nil_r. destruct i as [|c r]; [easy|].
  cbn [N.eqb Pos.eqb orb]. rewrite (parse_scientific_value es d Se Dd Nd), digits_value_dval. reflexivity.
Qed.
Definition float_char (c : N) : Prop := digit_char c \/ c = 45 \/ c = 46 \/ c = 101.
Lemma digits_float s : digits s -> Forall float_char s.
Proof. apply Forall_impl. intros c H. now left. Qed.

Lemma with_fraction_parse d E : 0 < d -> d mod 10 <> 0 ->
  exists m e i t, with_fraction (dec_of_N d) E = i ++ t /\ digits i /\ i <> [] /\ Forall float_char (i ++ t) /\ parse_number (i ++ t) = Some (m, e) /\ dec_real m e = dec_real d E.
Proof.
  intros P M. unfold with_fraction. destruct (printed d E P M) as [(L & s & -> & D & Ne & V)|(L & i & f & -> & Di & Df & Ni & Nf & Len & V & _)].
  - assert (K : (E <? 0)%Z = false) by now apply Z.ltb_ge. rewrite K.
    exists (dval (s ++ [48])), (-1)%Z, s, (bs ".0"). split; [reflexivity|]. split; [exact D|]. split; [exact Ne|].
    split. { apply Forall_app. split; [now apply digits_float|]. constructor; [right; right; left; reflexivity|constructor; [left; vm_compute; split; discriminate|constructor]]. }
    change (bs ".0") with (46 :: [48]). split.
    + rewrite parse_number_frac; [reflexivity|exact D|repeat constructor; vm_compute; discriminate|destruct s; easy].
    + rewrite dval_app. cbn [List.length]. change (dval [48]) with 0. rewrite N.add_0_r, V.
      rewrite <- N.mul_assoc, <- N.pow_add_r. replace (Z.to_N E + N.of_nat 1) with (Z.to_N (E + 1)) by lia.
      rewrite dec_real_shift by lia. f_equal. lia.
  - assert (K : (E <? 0)%Z = true) by now apply Z.ltb_lt. rewrite K, app_nil_r.
    exists d, E, i, ([46] ++ f). split; [reflexivity|]. split; [exact Di|]. split; [exact Ni|].
    split. { apply Forall_app. split; [now apply digits_float|]. constructor; [unfold float_char; auto|now apply digits_float]. }
    cbn [app]. rewrite parse_number_frac; [|exact Di|exact Df|destruct i; easy].
    rewrite V. split; [f_equal; f_equal; lia|reflexivity].
Qed.
Lemma dec_length d k : d < 10 ^ k -> 0 < d -> N.of_nat (List.length (dec_of_N d)) <= k.
Proof.
  intros L P. destruct (dec_of_N_spec d) as (_ & _ & _ & A & _). specialize (A P).
  assert (10 ^ (N.of_nat (List.length (dec_of_N d)) - 1) < 10 ^ k) by lia.
  apply N.pow_lt_mono_r_iff in H; lia.
Qed.
Lemma with_exponent_parse d E : 0 < d -> d < 2 ^ 64 -> (-1100 < E < 309)%Z ->
  exists i t, with_exponent (dec_of_N d) E = i ++ t /\ digits i /\ i <> [] /\ Forall float_char (i ++ t) /\ parse_number (i ++ t) = Some (d, E).
Proof.
  intros P B R. destruct (dec_of_N_spec d) as (D & V & Ne & _ & _).
  assert (Len : N.of_nat (List.length (dec_of_N d)) <= 20).
  { apply dec_length; [|exact P]. apply N.lt_trans with (2 ^ 64); [exact B|]. reflexivity. }
  unfold with_exponent. cbv zeta. remember (dec_of_N d) as ds. clear Heqds. destruct ds as [|c r]; [easy|].
  set (x := (Z.of_nat (List.length (c :: r)) - 1 + E)%Z).
  match goal with |- context [?q ++ dec_of_N (Z.to_N (Z.abs x))] => set (es := q) end.
  assert (Se : sign_opt es) by (unfold es; destruct (x <? 0)%Z; [right; right|left]; reflexivity).
  assert (Fe : Forall float_char es) by (unfold es; destruct (x <? 0)%Z; repeat constructor; unfold float_char; auto).
  destruct (dec_of_N_spec (Z.to_N (Z.abs x))) as (Dx & Vx & Nx & _ & _).
  assert (Xb : (Z.abs x < 65536)%Z) by (unfold x; cbn [List.length] in *; lia).
  assert (Xa : with_sign es (Z.of_N (exp_acc (dec_of_N (Z.to_N (Z.abs x))))) = x).
  { destruct (exp_acc_spec _ Dx) as [A _]. rewrite A by (rewrite Vx; lia). rewrite Vx. unfold es.
    destruct (Z.ltb_spec x 0); cbn [with_sign bs]; [change (bs "-") with [45]; cbn [with_sign]|]; lia. }
  set (dx := dec_of_N (Z.to_N (Z.abs x))) in *. clearbody dx es.
  apply digits_cons in D as Dc. destruct Dc as [Dc Dr].
  assert (D1 : digits [c]) by (constructor; [exact Dc|constructor]).
  destruct r as [|c' r].
  - exists [c], (101 :: es ++ dx). split; [reflexivity|]. split; [exact D1|]. split; [easy|]. split.
    { apply Forall_app. split; [now apply digits_float|]. constructor; [unfold float_char; auto|]. apply Forall_app. split; [exact Fe|now apply digits_float]. }
    rewrite parse_number_whole by (auto; easy). rewrite V, Xa. reflexivity.
  - exists [c], (46 :: (c' :: r) ++ 101 :: es ++ dx). split; [cbn [app]; reflexivity|]. split; [exact D1|]. split; [easy|]. split.
    { apply Forall_app. split; [now apply digits_float|]. constructor; [unfold float_char; auto|]. apply Forall_app. split; [now apply digits_float|].
      constructor; [unfold float_char; auto|]. apply Forall_app. split; [exact Fe|now apply digits_float]. }
    rewrite parse_number_full by (auto; easy). cbn [app] in V |- *. rewrite V, Xa. f_equal. f_equal. unfold x. cbn [List.length]. lia.
Qed.
Lemma debug_finite sci s m e : SpecFloat.bounded 53 1024 m e = true ->
  Forall float_char (debug_f64 sci (S754_finite s m e)) /\ f64_from_str (debug_f64 sci (S754_finite s m e)) = Some (S754_finite s m e).
Proof.
  intros B. unfold debug_f64.
  destruct (shortest_result 53 1024 _ _ ltac:(lia) ltac:(lia) ltac:(lia) m e B) as (d & E & H & A1 & A2 & A3 & Rg & A4 & _).
  rewrite H.
  match goal with |- context [f64_from_str (?a ++ ?q)] => set (sg := a); set (body := q) end.
  assert (Q : exists m' e' i t, body = i ++ t /\
     digits i /\ i <> [] /\ Forall float_char (i ++ t) /\ parse_number (i ++ t) = Some (m', e') /\ dec_real m' e' = dec_real d E).
  { unfold body. destruct (sci && _); [|now apply with_fraction_parse].
    destruct (with_exponent_parse d E A2 A3 Rg) as (i & t & K). exists d, E, i, t. tauto. }
  destruct Q as (m' & e' & i & t & -> & Di & Ni & Fc & Pn & V).
  assert (Sg : sign_opt sg) by (unfold sg; destruct s; [right; right|left]; reflexivity).
  split. { apply Forall_app. split; [|exact Fc]. unfold sg. destruct s; [constructor; [right; left; reflexivity|constructor]|constructor]. }
  rewrite (f64_from_str_sign sg (i ++ t) Sg (no_sign_digits i t Di Ni) ltac:(destruct i; easy)), Pn.
  assert (V' : dec_to_float 53 1024 (is_minus sg) m' e' = dec_to_float 53 1024 (is_minus sg) d E) by (apply dec_to_float_value; [reflexivity|reflexivity|exact V]).
  rewrite V'. f_equal. unfold sg. destruct s; cbn [is_minus bs].
  - change (is_minus (bs "-")) with true. rewrite dec_to_float_opp, A1. reflexivity.
  - exact A1.
Qed.
Lemma reads_back_lemma sci x : valid64 x -> f64_from_str (debug_f64 sci x) = Some x.
Proof.
  intro V. destruct x as [s|s| |s m e]; [destruct s; vm_compute; reflexivity|destruct s; vm_compute; reflexivity|vm_compute; reflexivity|].
  apply debug_finite. exact V.
Qed.
Lemma debug_no_comma sci x : valid64 x -> ~ In 44 (debug_f64 sci x).
Proof.
  intro V. destruct x as [s|s| |s m e]; [destruct s; cbn; lia|destruct s; cbn; lia|cbn; lia|].
  destruct (debug_finite sci s m e V) as [F _]. intro I. rewrite Forall_forall in F. specialize (F _ I).
  unfold float_char, digit_char in F. lia.
Qed.
(** a finite number is never shown as an integer *)
Lemma shows_float_lemma sci s m e : SpecFloat.bounded 53 1024 m e = true -> exists c, In c (debug_f64 sci (S754_finite s m e)) /\ (c = 46 \/ c = 101).
Proof.
  intros B. unfold debug_f64.
  destruct (shortest_result 53 1024 _ _ ltac:(lia) ltac:(lia) ltac:(lia) m e B) as (d & E & H & A1 & A2 & A3 & Rg & A4 & _).
  rewrite H. destruct (sci && _).
  - exists 101. split; [|auto]. apply in_or_app. right. unfold with_exponent.
    destruct (dec_of_N_spec d) as (_ & _ & Ne & _). destruct (dec_of_N d) as [|c r]; [easy|]. right. apply in_or_app. right. left. reflexivity.
  - exists 46. split; [|auto]. apply in_or_app. right. unfold with_fraction.
    destruct (printed d E A2 A4) as [(L & s' & -> & _)|(L & i & f & -> & _)].
    + assert (K : (E <? 0)%Z = false) by now apply Z.ltb_ge. rewrite K. apply in_or_app. right. left. reflexivity.
    + apply in_or_app. left. apply in_or_app. right. left. reflexivity.
Qed.
(** up to the change of Rust 1.58, [Display] and ".0" *)
Lemma plain_lemma x : valid64 x -> debug_f64 false x = f64_to_string x \/ (debug_f64 false x = f64_to_string x ++ bs ".0").
Proof.
  intro V. destruct x as [s|s| |s m e]; [right; destruct s; reflexivity|left; reflexivity|left; reflexivity|].
  unfold debug_f64, f64_to_string, float_to_string. cbn [andb].
  destruct (shortest 53 1024 m e) as [[d E]|]; [|now left].
  unfold with_fraction. destruct (E <? 0)%Z; [left|right]; [now rewrite app_nil_r|now rewrite app_assoc].
Qed.

(** ** Texts that end where they must *)
Definition alnum (c : N) : Prop := 48 <= c <= 57 \/ 65 <= c <= 90 \/ 97 <= c <= 122.
Definition stops (x : bytes) : Prop := match x with [] => True | c :: _ => ~ alnum c end.
Definition code {A} (p : A -> bytes) : Prop := forall a b x y, stops x -> stops y -> p a ++ x = p b ++ y -> a = b /\ x = y.
Lemma code_inj A (p : A -> bytes) a b : code p -> p a = p b -> a = b.
Proof.
  intros C E. destruct (C a b [] [] Logic.I Logic.I) as [H _]; [|exact H]. now rewrite !app_nil_r.
Qed.
Lemma digits_cut a b x y : digits a -> digits b -> stops x -> stops y -> a ++ x = b ++ y -> a = b /\ x = y.
Proof.
  revert b. induction a as [|c a IH]; intros [|c' b] Da Db Sx Sy E; cbn [app] in E.
  - now split.
  - exfalso. subst x. apply digits_cons in Db as [H _]. apply Sx. left. exact H.
  - exfalso. subst y. apply digits_cons in Da as [H _]. apply Sy. left. exact H.
  - inversion E; subst c'. apply digits_cons in Da as [_ Da]. apply digits_cons in Db as [_ Db].
    destruct (IH b Da Db Sx Sy H1) as [-> ->]. now split.
Qed.
Lemma code_dec : code dec_of_N.
Proof.
  intros a b x y Sx Sy E. destruct (dec_of_N_spec a) as (Da & Va & _). destruct (dec_of_N_spec b) as (Db & Vb & _).
  destruct (digits_cut _ _ _ _ Da Db Sx Sy E) as [K ->]. split; [|reflexivity]. rewrite <- Va, <- Vb. now f_equal.
Qed.
Ltac stop := cbn; unfold alnum; try lia; auto.
(** take a shared constant, or a part with property [code], off both sides of [E] *)
Ltac off E := rewrite <- ?app_assoc in E; apply app_inv_head in E.
Ltac part C E K := rewrite <- ?app_assoc in E; apply C in E; [destruct E as [K E]|stop|stop].
Lemma code_option A (p : A -> bytes) : code p -> code (debug_option p).
Proof.
  intros C [a|] [b|] x y Sx Sy E; unfold debug_option in E.
  - off E. part C E K. off E. now subst.
  - exfalso. discriminate E.
  - exfalso. discriminate E.
  - off E. now split.
Qed.
Definition open_char (c : N) : Prop := c <> 93.
Definition opens {A} (p : A -> bytes) : Prop := forall a, exists c r, p a = c :: r /\ c <> 93.
Lemma code_rest A (p : A -> bytes) : code p -> code (debug_rest p).
Proof.
  intros C a. induction a as [|h a IH]; intros [|h' b] x y Sx Sy E; cbn [debug_rest] in E.
  - off E. now split.
  - exfalso. discriminate E.
  - exfalso. discriminate E.
  - off E. rewrite <- ?app_assoc in E. apply C in E as [-> E].
    + apply IH in E as [-> E]; auto.
    + destruct a; stop.
    + destruct b; stop.
Qed.
Lemma code_vec A (p : A -> bytes) : code p -> opens p -> code (debug_vec p).
Proof.
  intros C O [|h a] [|h' b] x y Sx Sy E; unfold debug_vec in E; off E.
  - off E. now split.
  - exfalso. destruct (O h') as (c & r & K & Nc). rewrite K in E. inversion E. congruence.
  - exfalso. destruct (O h) as (c & r & K & Nc). rewrite K in E. inversion E. congruence.
  - rewrite <- ?app_assoc in E. apply C in E as [-> E].
    + apply (code_rest _ p C) in E as [-> E]; auto.
    + destruct a; stop.
    + destruct b; stop.
Qed.

(** ** The types of ast.rs *)
Lemma code_value : code debug_value.
Proof. intros a b x y Sx Sy E. unfold debug_value in E. off E. part code_dec E K. off E. now split. Qed.
Lemma code_range : code debug_range.
Proof.
  intros [a1 a2] [b1 b2] x y Sx Sy E. unfold debug_range in E. cbn [lower_val upper_val] in E.
  off E. part code_value E K1. off E. part code_value E K2. off E. now subst.
Qed.
Lemma code_item : code debug_item.
Proof.
  intros [a|a] [b|b] x y Sx Sy E; unfold debug_item in E.
  - off E. part code_range E K. off E. now subst.
  - exfalso. discriminate E.
  - exfalso. discriminate E.
  - off E. part code_value E K. off E. now subst.
Qed.
Lemma code_list : code debug_list.
Proof.
  intros a b x y Sx Sy E. unfold debug_list in E. off E.
  assert (O : opens debug_item) by (intros [i|i]; eexists; eexists; (split; [reflexivity|vm_compute; discriminate])).
  part (code_vec _ _ code_item O) E K. off E. now subst.
Qed.
Lemma code_operand : code debug_operand.
Proof. intros [] [] x y Sx Sy E; cbn in E; try discriminate E; (split; [reflexivity|congruence]). Qed.
Lemma code_modulo : code debug_modulo.
Proof. intros a b x y Sx Sy E. unfold debug_modulo in E. off E. part code_value E K. off E. now subst. Qed.
Lemma code_expression : code debug_expression.
Proof.
  intros [a1 a2] [b1 b2] x y Sx Sy E. unfold debug_expression in E. cbn [ex_operand ex_modulus] in E.
  off E. part code_operand E K1. off E. part (code_option _ _ code_modulo) E K2. off E. now subst.
Qed.
Lemma code_operator : code debug_operator.
Proof.
  intros [] [] x y Sx Sy E; cbn in E; try discriminate E; try (split; [reflexivity|congruence]);
    exfalso; inversion E; subst; cbn in Sx, Sy; unfold alnum in Sx, Sy; lia.
Qed.
Lemma code_relation : code debug_relation.
Proof.
  intros [a1 a2 a3] [b1 b2 b3] x y Sx Sy E. unfold debug_relation in E. cbn [rel_expr rel_op rel_list] in E.
  off E. part code_expression E K1. off E. part code_operator E K2. off E. part code_list E K3. off E. now subst.
Qed.
Lemma code_and : code debug_and.
Proof.
  intros a b x y Sx Sy E. unfold debug_and in E. off E.
  assert (O : opens debug_relation) by (intro r; eexists; eexists; (split; [reflexivity|vm_compute; discriminate])).
  part (code_vec _ _ code_relation O) E K. off E. now subst.
Qed.
Lemma code_condition : code debug_condition.
Proof.
  intros a b x y Sx Sy E. unfold debug_condition in E. off E.
  assert (O : opens debug_and) by (intro r; eexists; eexists; (split; [reflexivity|vm_compute; discriminate])).
  part (code_vec _ _ code_and O) E K. off E. now subst.
Qed.
Lemma code_decimal : code debug_decimal.
Proof.
  intros [a1 a2] [b1 b2] x y Sx Sy E. unfold debug_decimal in E. cbn [dv_integer dv_decimal] in E.
  off E. part code_value E K1. off E. part (code_option _ _ code_value) E K2. off E. now subst.
Qed.
Lemma code_sample_range : code debug_sample_range.
Proof.
  intros [a1 a2] [b1 b2] x y Sx Sy E. unfold debug_sample_range in E. cbn [sr_lower sr_upper] in E.
  off E. part code_decimal E K1. off E. part (code_option _ _ code_decimal) E K2. off E. now subst.
Qed.
Lemma code_bool : code debug_bool.
Proof. intros [] [] x y Sx Sy E; cbn in E; try discriminate E; (split; [reflexivity|congruence]). Qed.
Lemma code_sample_list : code debug_sample_list.
Proof.
  intros [a1 a2] [b1 b2] x y Sx Sy E. unfold debug_sample_list in E. cbn [sl_ranges sl_ellipsis] in E. off E.
  assert (O : opens debug_sample_range) by (intro r; eexists; eexists; (split; [reflexivity|vm_compute; discriminate])).
  part (code_vec _ _ code_sample_range O) E K1. off E. part code_bool E K2. off E. now subst.
Qed.
Lemma code_samples : code debug_samples.
Proof.
  intros [a1 a2] [b1 b2] x y Sx Sy E. unfold debug_samples in E. cbn [sa_integer sa_decimal] in E.
  off E. part (code_option _ _ code_sample_list) E K1. off E. part (code_option _ _ code_sample_list) E K2. off E. now subst.
Qed.
Lemma code_rule : code debug_rule.
Proof.
  intros [a1 a2] [b1 b2] x y Sx Sy E. unfold debug_rule in E. cbn [ru_condition ru_samples] in E.
  off E. part code_condition E K1. off E. part (code_option _ _ code_samples) E K2. off E. now subst.
Qed.

(** ** Operands and categories *)
Lemma comma_cut (a b x y : bytes) : ~ In 44 a -> ~ In 44 b -> a ++ 44 :: x = b ++ 44 :: y -> a = b /\ x = y.
Proof.
  revert b. induction a as [|c a IH]; intros [|c' b] Ha Hb E; cbn [app] in E.
  - inversion E. now split.
  - exfalso. inversion E. apply Hb. now left.
  - exfalso. inversion E. apply Ha. now left.
  - inversion E. subst c'. destruct (IH b) as [-> ->]; auto; intro K; [apply Ha|apply Hb]; now right.
Qed.
Lemma operands_lemma sci a b : valid64 (op_n a) -> valid64 (op_n b) -> debug_operands sci a = debug_operands sci b -> a = b.
Proof.
  destruct a as [n i v w f t], b as [n' i' v' w' f' t']. unfold debug_operands. cbn [op_n op_i op_v op_w op_f op_t].
  intros Va Vb E. off E. change (bs ", i: ") with (44 :: bs " i: ") in E. cbn [app] in E.
  apply comma_cut in E as [Kn E]; [|now apply debug_no_comma|now apply debug_no_comma].
  assert (n = n') by (pose proof (reads_back_lemma sci n Va) as P; rewrite Kn, (reads_back_lemma sci n' Vb) in P; now inversion P).
  off E. part code_dec E K1. off E. part code_dec E K2. off E. part code_dec E K3. off E. part code_dec E K4. off E. part code_dec E K5. now subst.
Qed.
Lemma assert_lemma sci a b : valid64 (op_n a) -> valid64 (op_n b) -> operands_eqb a b = false -> debug_operands sci a = debug_operands sci b ->
  op_n a = S754_nan /\ op_n b = S754_nan.
Proof.
  intros Va Vb Ne E. apply operands_lemma in E; [|exact Va|exact Vb]. subst b.
  assert (K : SFeqb (op_n a) (op_n a) = false).
  { unfold operands_eqb in Ne. rewrite !N.eqb_refl, !andb_true_r in Ne. exact Ne. }
  destruct (op_n a) as [s|s| |s m e] eqn:Q; [| | now split |]; exfalso; apply Bool.not_true_iff_false in K; apply K, SFeqb_cases.
  - right. split; exists s; reflexivity.
  - left. split; [reflexivity|discriminate].
  - left. split; [reflexivity|discriminate].
Qed.
Lemma category_lemma a b : debug_category a = debug_category b -> a = b.
Proof. destruct a, b; intro E; try reflexivity; discriminate E. Qed.
