(** * The digits above the million never matter (C117) *)
From Coq Require Import Reals Lia Lra ZifyBool ZifyN ZifyNat Floats.SpecFloat.
From Flocq Require Import Core IEEE754.BinarySingleNaN.
From Verif Require Import Base F64 F64Facts SpecR LangId GenRs Json CldrParser Ast Spec Cldr Operands RustExpr PluralRules Tables ApiProps OperandsProps
  GenMeaning Conformance CodeSpec InputSpec CodeShipped BehaviourSpec SpellingProps ListProps DecListProps RepeatSpec LengthProps FloatProps.
Open Scope N_scope.

(** ** CLDR *)
Lemma max_below l B : Forall (item_below B) l -> fold_right (fun it a => N.max (item_max it + 1) a) 0 l <= B.
Proof.
  induction 1 as [|it l H _ IH]; [cbn; lia|]. cbn [fold_right]. destruct it as [r|k]; cbn [item_below item_max] in *; lia.
Qed.
Lemma relation_repeats_uts B P r f x y : relation_repeats B P r -> P <> 0 -> B <= x -> B <= y -> x mod P = y mod P ->
  same_at (uts_relation r) f x y.
Proof.
  intros R P0 X Y E. unfold relation_repeats in R. destruct (ex_modulus (rel_expr r)) as [m|] eqn:M.
  - destruct R as [D _]. assert (m <> 0) as Z by (intros ->; apply N.divide_0_l in D; congruence).
    apply (relation_same_f r f x y P); auto; unfold rel_bound, rel_period; rewrite M; destruct m; try easy; lia.
  - apply max_below in R.
    apply (relation_same_f r f x y P); auto; unfold rel_bound, rel_period; rewrite M; try lia. apply N.divide_1_l.
Qed.
Lemma repeats_uts B P rules f x y c : repeats B P rules -> P <> 0 -> B <= x -> B <= y -> x mod P = y mod P ->
  cldr_select rules (mkDecimal x f) c <-> cldr_select rules (mkDecimal y f) c.
Proof.
  intros R P0 X Y E.
  assert (A : forall c k, In (c, k) rules -> uts_condition k (mkDecimal x f) = uts_condition k (mkDecimal y f)).
  { intros c' k I. unfold repeats in R. rewrite Forall_forall in R. specialize (R _ I). cbn [snd] in R. clear I.
    unfold uts_condition. induction R as [|a k Ra _ IH]; [reflexivity|]. cbn [existsb]. f_equal; [|exact IH].
    unfold uts_and. induction Ra as [|r a Rr _ IHa]; [reflexivity|]. cbn [forallb]. f_equal; [|exact IHa].
    now apply (relation_repeats_uts B P r f x y). }
  rewrite <- !cldr_selectb_iff. unfold cldr_selectb. clear R.
  assert (Q : cldr_selectb rules (mkDecimal x f) c = cldr_selectb rules (mkDecimal y f) c); [|unfold cldr_selectb in Q; now rewrite Q].
  unfold cldr_selectb. destruct (cat_eqb c OTHER).
  - induction rules as [|[c' k] rs IH]; [reflexivity|]. cbn [forallb]. rewrite (A c' k) by now left. f_equal. apply IH. intros c2 k2 I. apply (A c2). now right.
  - induction rules as [|[c' k] rs IH]; [reflexivity|]. cbn [existsb]. rewrite (A c' k) by now left. f_equal. apply IH. intros c2 k2 I. apply (A c2). now right.
Qed.

(** ** Generated code *)
Definition high (B : N) (x : spec_float) : Prop :=
  forall k, k < B -> SFeqb x (f64_of_N k) = false /\ SFleb x (f64_of_N k) = false /\ SFltb x (f64_of_N k) = false.
Lemma relation_repeats_code B P r a b : relation_repeats B P r -> P <> 0 -> B <= op_i a -> B <= op_i b -> op_i a mod P = op_i b mod P ->
  op_v a = op_v b -> op_w a = op_w b -> op_f a = op_f b -> op_t a = op_t b -> high B (op_n a) -> high B (op_n b) ->
  code_relation a r = code_relation b r.
Proof.
  intros R P0 X Y E Ev Ew Ef Et Ha Hb. unfold relation_repeats in R.
  assert (MS : forall m, (m | P) -> op_i a mod m = op_i b mod m) by (intros m D; now apply (mod_same _ _ m P)).
  destruct r as [[o m] op l]. unfold code_relation. cbn [rel_expr rel_op rel_list ex_modulus ex_operand] in *.
  assert (V : forall k, In (RValue k) l -> code_value (mkExpr o m) k a = code_value (mkExpr o m) k b).
  { intros k I. unfold code_value, plain_n, reduced, code_operand. cbn [ex_operand ex_modulus]. destruct m as [m|].
    - destruct R as [D _]. specialize (MS m D). destruct o; rewrite ?MS, ?Ev, ?Ew, ?Ef, ?Et; reflexivity.
    - rewrite Forall_forall in R. specialize (R _ I). cbn [item_below] in R.
      destruct o; rewrite ?Ev, ?Ew, ?Ef, ?Et; try reflexivity.
      + destruct (Ha k R) as (-> & _). destruct (Hb k R) as (-> & _). reflexivity.
      + assert (A : (op_i a =? k) = false) by lia. assert (A' : (op_i b =? k) = false) by lia. now rewrite A, A'. }
  assert (Rg : forall r, In (RRange r) l -> code_range (mkExpr o m) r a = code_range (mkExpr o m) r b).
  { intros r I. unfold code_range, on_n, reduced, code_operand, between. cbn [ex_operand ex_modulus].
    assert (Out : upper_val r < B -> (lower_val r <=? op_i a) && (op_i a <=? upper_val r) = (lower_val r <=? op_i b) && (op_i b <=? upper_val r)) by (intros; lia).
    destruct m as [m|].
    - destruct R as [D Q]. specialize (MS m D). destruct o; rewrite ?MS, ?Ev, ?Ew, ?Ef, ?Et; try reflexivity.
      apply Out. specialize (Q eq_refl). rewrite Forall_forall in Q. specialize (Q _ I). cbn in Q. lia.
    - rewrite Forall_forall in R. specialize (R _ I). cbn [item_below] in R.
      destruct o; rewrite ?Ev, ?Ew, ?Ef, ?Et; try reflexivity; apply Out; lia. }
  assert (NF : no_fraction (mkExpr o m) a = no_fraction (mkExpr o m) b) by (unfold no_fraction; now rewrite Ef).
  assert (IT : forall it, In it l -> code_item (mkExpr o m) a it = code_item (mkExpr o m) b it /\ code_not_item (mkExpr o m) a it = code_not_item (mkExpr o m) b it).
  { intros [r|k] I; cbn [code_item code_not_item].
    - rewrite (Rg r I), NF. auto.
    - rewrite (V k I). auto. }
  assert (EX : existsb (code_item (mkExpr o m) a) l = existsb (code_item (mkExpr o m) b) l).
  { clear - IT. induction l as [|it l IH]; [reflexivity|]. cbn. rewrite (proj1 (IT it (or_introl eq_refl))). f_equal. apply IH. intros i I. apply IT. now right. }
  assert (FA : forallb (code_not_item (mkExpr o m) a) l = forallb (code_not_item (mkExpr o m) b) l).
  { clear - IT. induction l as [|it l IH]; [reflexivity|]. cbn. rewrite (proj2 (IT it (or_introl eq_refl))). f_equal. apply IH. intros i I. apply IT. now right. }
  assert (FR : forall r, first_range l = Some r -> In (RRange r) l).
  { clear. induction l as [|[q|k] l IH]; cbn; intros r H; [discriminate|injection H as ->; now left|right; auto]. }
  assert (WO : forall mm, m = Some mm -> within_operand (mkExpr o m) a = within_operand (mkExpr o m) b).
  { intros mm ->. unfold within_operand. cbn [ex_modulus]. apply MS. now destruct R. }
  destruct op; try exact EX; try exact FA.
  - destruct (first_range l) as [r|] eqn:F; [|reflexivity]. specialize (FR r eq_refl). unfold code_within, plain_n. cbn [ex_operand ex_modulus].
    destruct m as [m|].
    + rewrite (WO m eq_refl). destruct o; reflexivity.
    + rewrite Forall_forall in R. specialize (R _ FR). cbn [item_below] in R. unfold within_operand, code_operand, between. cbn [ex_operand ex_modulus].
      destruct o; rewrite ?Ev, ?Ew, ?Ef, ?Et; try reflexivity; [|lia].
      destruct (Ha (upper_val r) ltac:(lia)) as (_ & -> & _). destruct (Hb (upper_val r) ltac:(lia)) as (_ & -> & _). now rewrite !Bool.andb_false_r.
  - destruct (first_range l) as [r|] eqn:F; [|reflexivity]. specialize (FR r eq_refl). unfold code_not_within, plain_n. cbn [ex_operand ex_modulus].
    destruct m as [m|].
    + rewrite (WO m eq_refl). destruct o; reflexivity.
    + rewrite Forall_forall in R. specialize (R _ FR). cbn [item_below] in R. unfold within_operand, code_operand, between. cbn [ex_operand ex_modulus].
      destruct o; rewrite ?Ev, ?Ew, ?Ef, ?Et; try reflexivity; [|lia].
      destruct (Ha (lower_val r) ltac:(lia)) as (_ & _ & ->). destruct (Hb (lower_val r) ltac:(lia)) as (_ & _ & ->). reflexivity.
Qed.
Lemma repeats_code B P rules a b : repeats B P rules -> P <> 0 -> B <= op_i a -> B <= op_i b -> op_i a mod P = op_i b mod P ->
  op_v a = op_v b -> op_w a = op_w b -> op_f a = op_f b -> op_t a = op_t b -> high B (op_n a) -> high B (op_n b) ->
  code_select rules a = code_select rules b.
Proof.
  intros R P0 X Y E Ev Ew Ef Et Ha Hb. unfold code_select.
  assert (F : List.find (fun cc => match fst cc with OTHER => false | _ => code_condition (snd cc) a end) rules =
              List.find (fun cc => match fst cc with OTHER => false | _ => code_condition (snd cc) b end) rules); [|now rewrite F].
  induction R as [|[c k] rules Rk _ IH]; [reflexivity|]. cbn [List.find fst snd] in *.
  assert (C : code_condition k a = code_condition k b).
  { clear IH. unfold code_condition. induction Rk as [|al k Ra _ IHk]; [reflexivity|]. cbn [existsb]. f_equal; [|exact IHk].
    induction Ra as [|r al Rr _ IHa]; [reflexivity|]. cbn [forallb]. f_equal; [|exact IHa].
    now apply (relation_repeats_code B P). }
  rewrite C, IH. reflexivity.
Qed.

(** ** Large numbers *)
Lemma high_of_real B x y : B <= 2 ^ 53 -> (IZR (Z.of_N B) <= x)%R -> nearest64 x y -> high B y.
Proof.
  intros L X N k K.
  assert (RK : SF2R radix2 (f64_of_N k) = IZR (Z.of_N k) /\ is_finite_SF (f64_of_N k) = true).
  { pose proof (f64_of_N_nearest k) as Q. unfold nearest64 in Q. cbv zeta in Q. change (FLT_exp (-1074) 53) with fexp64 in Q.
    rewrite (rnd64_int (Z.of_N k)) in Q by lia. destruct Q as [(_ & F & _ & S & _)|[H _]]; [auto|].
    exfalso. apply (Rlt_irrefl (bpow radix2 1024)). eapply Rle_lt_trans; [exact H|].
    apply Rlt_trans with (IZR (2 ^ 53)); [apply IZR_lt; lia|]. change (IZR (2 ^ 53)) with (bpow radix2 53). now apply bpow_lt. }
  destruct RK as [RK FK]. unfold nearest64 in N. cbv zeta in N. change (FLT_exp (-1074) 53) with fexp64 in N.
  assert (G : (IZR (Z.of_N B) <= round radix2 fexp64 ZnearestE x)%R).
  { rewrite <- (rnd64_int (Z.of_N B)) by lia. apply round_le; auto with typeclass_instances. }
  assert (KB : (IZR (Z.of_N k) < IZR (Z.of_N B))%R) by (apply IZR_lt; lia).
  destruct N as [(_ & F & _ & S & V)|[_ ->]].
  - rewrite SFeqb_correct, SFleb_correct, SFltb_correct by (auto using valid_f64_of_N). rewrite S, RK.
    split; [apply Req_bool_false; lra|]. split; [apply Rle_bool_false; lra|apply Rlt_bool_false; lra].
  - destruct (f64_of_N k) as [s|s| |s m e]; try discriminate; repeat split.
Qed.
Lemma numeral_high s d po B : numeral s d -> operands_from_str s = Ok po -> keeps_integer d -> B <= d_int d -> B <= 2 ^ 53 -> high B (op_n po).
Proof.
  intros N O K L L2. destruct (numeral_operands s d po N O K) as (On & _). apply (high_of_real B (dec_real (uts_num d) (- Z.of_N (uts_v d)))); auto.
  - rewrite dec_real_parts.
    assert (0 <= IZR (Z.of_N (uts_f d)) / IZR (Z.of_N (uts_den d)))%R.
    { apply Rmult_le_pos; [apply IZR_le; lia|]. apply Rlt_le, Rinv_0_lt_compat, IZR_lt. pose proof (den_pos d). lia. }
    assert (IZR (Z.of_N B) <= IZR (Z.of_N (d_int d)))%R by (apply IZR_le; lia). lra.
  - rewrite On. apply dec64_nearest'.
Qed.
Lemma C117_code_lemma B P rules s s' x y f po po' : repeats B P rules -> P <> 0 -> B <= 2 ^ 53 ->
  numeral s (mkDecimal x f) -> numeral s' (mkDecimal y f) -> operands_from_str s = Ok po -> operands_from_str s' = Ok po' ->
  keeps_integer (mkDecimal x f) -> keeps_integer (mkDecimal y f) -> B <= x -> B <= y -> x mod P = y mod P ->
  code_select rules po = code_select rules po'.
Proof.
  intros R P0 L N N' O O' K K' X Y E.
  destruct (numeral_fields s _ po N O) as (_ & _ & Ev & Ew & Ef & Et). destruct (numeral_fields s' _ po' N' O') as (_ & _ & Ev' & Ew' & Ef' & Et').
  destruct (numeral_operands s _ po N O K) as (_ & Oi & _). destruct (numeral_operands s' _ po' N' O' K') as (_ & Oi' & _).
  unfold uts_i in Oi, Oi'. cbn [d_int] in Oi, Oi'.
  unfold uts_v, uts_w, uts_f, uts_t in *. cbn [d_frac] in *.
  apply (repeats_code B P rules po po' R P0); rewrite ?Oi, ?Oi'; auto; try congruence.
  - exact (numeral_high s _ po B N O K X L).
  - exact (numeral_high s' _ po' B N' O' K' Y L).
Qed.
Lemma C117_unsigned_lemma B P rules x y : repeats B P rules -> P <> 0 -> B <= 2 ^ 53 -> B <= x -> B <= y -> x mod P = y mod P ->
  code_select rules (operands_from_unsigned x) = code_select rules (operands_from_unsigned y).
Proof.
  intros R P0 L X Y E. apply (repeats_code B P rules _ _ R P0); auto; cbn [operands_from_unsigned op_n].
  - apply (high_of_real B (IZR (Z.of_N x))); auto; [apply IZR_le; lia|apply f64_of_N_nearest].
  - apply (high_of_real B (IZR (Z.of_N y))); auto; [apply IZR_le; lia|apply f64_of_N_nearest].
Qed.

(** ** The shipped data *)
Definition item_belowb (B : N) (it : range_list_item) : bool :=
  match it with RValue k => k <? B | RRange r => (lower_val r <? B) && (upper_val r <? B) end.
Definition relation_repeatsb (B P : N) (r : relation) : bool :=
  match ex_modulus (rel_expr r) with
  | None => forallb (item_belowb B) (rel_list r)
  | Some m => (P mod m =? 0) && negb (m =? 0) && (negb (on_n (rel_expr r)) || forallb (fun it => match it with RValue _ => true | RRange _ => item_belowb B it end) (rel_list r))
  end.
Definition repeatsb (B P : N) (rules : list (category * condition)) : bool :=
  forallb (fun rule => forallb (forallb (relation_repeatsb B P)) (snd rule)) rules.
Lemma item_belowb_ok B it : item_belowb B it = true -> item_below B it.
Proof. destruct it; cbn; lia. Qed.
Lemma relation_repeatsb_ok B P r : relation_repeatsb B P r = true -> relation_repeats B P r.
Proof.
  intro H. unfold relation_repeatsb in H. unfold relation_repeats. destruct (ex_modulus (rel_expr r)) as [m|].
  - apply andb_prop in H as [H H2]. apply andb_prop in H as [H H1]. apply Bool.negb_true_iff, N.eqb_neq in H1. apply N.eqb_eq in H.
    split; [now apply N.mod_divide|]. intros O. unfold on_n in H2. rewrite O in H2. cbn [negb orb] in H2. rewrite forallb_forall in H2.
    apply Forall_forall. intros it Q. specialize (H2 it Q). destruct it; [now apply item_belowb_ok|exact Logic.I].
  - rewrite forallb_forall in H. apply Forall_forall. intros it Q. apply item_belowb_ok. auto.
Qed.
Lemma repeatsb_ok B P rules : repeatsb B P rules = true -> repeats B P rules.
Proof.
  unfold repeatsb, repeats. rewrite forallb_forall, Forall_forall. intros H rule I. specialize (H rule I).
  rewrite forallb_forall in H. apply Forall_forall. intros a J. specialize (H a J). rewrite forallb_forall in H.
  apply Forall_forall. intros r K. apply relation_repeatsb_ok. auto.
Qed.
Lemma shipped_six t : forallb (fun e => repeatsb 20001 1000000 (snd e)) (cldr t) = true.
Proof. destruct t; vm_compute; reflexivity. Qed.
Definition long_period (t : pr_type) (id : langid) : bool :=
  match t with CARDINAL => mem id [lang "br"; lang "kw"] | ORDINAL => false end.
Lemma shipped_three t : forallb (fun e => long_period t (fst e) || repeatsb 1001 1000 (snd e)) (cldr t) = true.
Proof. destruct t; vm_compute; reflexivity. Qed.
Lemma C117_six_lemma t id rules : In (id, rules) (cldr t) -> repeats 20001 1000000 rules.
Proof.
  intro I. pose proof (shipped_six t) as H. rewrite forallb_forall in H. specialize (H _ I). apply repeatsb_ok. exact H.
Qed.
Lemma long_period_not t id : (t = CARDINAL -> id <> lang "br" /\ id <> lang "kw") -> long_period t id = false.
Proof.
  intro T. destruct t; [|reflexivity]. destruct (T eq_refl) as [T1 T2]. apply Bool.not_true_iff_false. cbn [long_period].
  intro M. apply mem_in in M as Z. destruct Z as [Z|[Z|[]]]; congruence.
Qed.
Lemma C117_three_lemma t id rules : In (id, rules) (cldr t) -> (t = CARDINAL -> id <> lang "br" /\ id <> lang "kw") -> repeats 1001 1000 rules.
Proof.
  intros I T. apply long_period_not in T. pose proof (shipped_three t) as H. rewrite forallb_forall in H. specialize (H _ I). cbn [fst snd] in H.
  rewrite T in H. apply repeatsb_ok. exact H.
Qed.
Lemma select_str how w id t pr rules s c : create how id t = Ok pr -> In (id, rules) (cldr t) -> select w pr (InStr s) = Ok c ->
  exists po, operands_from_str s = Ok po /\ c = code_select rules po.
Proof.
  intros C I S. destruct (C93_lemma how id t pr C) as (rs & _ & U & H). rewrite (U rules I).
  destruct (to_operands w (InStr s)) as [po| |] eqn:E.
  - exists po. split; [exact E|]. rewrite (H w _ po E) in S. congruence.
  - unfold select in S. rewrite E in S. discriminate.
  - unfold select in S. rewrite E in S. discriminate.
Qed.
Lemma C117_select_lemma how w id t pr rules B P s s' x y f c c' : create how id t = Ok pr -> In (id, rules) (cldr t) ->
  repeats B P rules -> P <> 0 -> B <= 2 ^ 53 -> numeral s (mkDecimal x f) -> numeral s' (mkDecimal y f) ->
  keeps_integer (mkDecimal x f) -> keeps_integer (mkDecimal y f) -> B <= x -> B <= y -> x mod P = y mod P ->
  select w pr (InStr s) = Ok c -> select w pr (InStr s') = Ok c' -> c = c'.
Proof.
  intros C I R P0 L N N' K K' X Y E S S'.
  destruct (select_str how w id t pr rules s c C I S) as (po & O & ->). destruct (select_str how w id t pr rules s' c' C I S') as (po' & O' & ->).
  exact (C117_code_lemma B P rules s s' x y f po po' R P0 L N N' O O' K K' X Y E).
Qed.
Lemma C117_u64_lemma how w id t pr rules B P x y : create how id t = Ok pr -> In (id, rules) (cldr t) ->
  repeats B P rules -> P <> 0 -> B <= 2 ^ 53 -> B <= x -> B <= y -> x mod P = y mod P ->
  select w pr (InUnsigned x) = select w pr (InUnsigned y).
Proof.
  intros C I R P0 L X Y E. destruct (C93_lemma how id t pr C) as (rs & _ & U & H). specialize (U rules I). subst rs.
  rewrite (H w (InUnsigned x) _ eq_refl), (H w (InUnsigned y) _ eq_refl). f_equal. exact (C117_unsigned_lemma B P rules x y R P0 L X Y E).
Qed.
