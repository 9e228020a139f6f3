(** * C103: exactly which relations are generated faithfully *)
From Coq Require Import Lia Floats.SpecFloat.
From Verif Require Import Base F64 Operands Ast LangId Tokens GenPr GenRs RustExpr PluralRules Tables Cldr Spec CodeSpec DigitFacts ApiProps
  GenFacts GenMeaning CodeProps Represents Conformance ConformanceProps.
Open Scope N_scope.

(** ** The criterion, from the AST alone *)
Definition membership (op : operator) : Prop := op <> OpWithin /\ op <> OpNotWithin.
(** all numbers are below 2^49 and no modulus is 0 *)
Definition item_moderate (it : range_list_item) : Prop :=
  match it with RValue v => v < 2 ^ 49 | RRange r => lower_val r < 2 ^ 49 /\ upper_val r < 2 ^ 49 end.
Definition moderate (r : relation) : Prop :=
  match ex_modulus (rel_expr r) with Some m => 0 < m < 2 ^ 49 | None => True end /\
  Forall item_moderate (rel_list r).

(** nothing satisfies the item: a value that is no remainder, an empty range *)
Definition dead (m : N) (it : range_list_item) : Prop :=
  match it with RValue v => m <= v | RRange r => upper_val r < lower_val r end.
Lemma dead_dec m it : {dead m it} + {~ dead m it}.
Proof.
  destruct it as [r|v]; cbn [dead].
  - destruct (upper_val r <? lower_val r) eqn:E; [left; now apply N.ltb_lt|right]. apply N.ltb_ge in E. lia.
  - destruct (m <=? v) eqn:E; [left; now apply N.leb_le|right]. apply N.leb_gt in E. lia.
Defined.
(** right for every number *)
Definition faithful (r : relation) : Prop :=
  match ex_operand (rel_expr r), ex_modulus (rel_expr r) with
  | ON, None => is_negated (rel_op r) = true -> forall rg, ~ In (RRange rg) (rel_list r)
  | ON, Some m => Forall (dead m) (rel_list r)
  | _, _ => True
  end.
(** right for every integer: what a range covers is listed, reduced, as single values *)
Definition faithful_on_integers (r : relation) : Prop :=
  match ex_operand (rel_expr r), ex_modulus (rel_expr r) with
  | ON, Some m => forall rg x, In (RRange rg) (rel_list r) -> lower_val rg <= x <= upper_val rg ->
      In (RValue (x mod m)) (rel_list r)
  | _, _ => True
  end.

(** ** One item *)
Lemma mod_frac a m b : 0 < m -> 0 < b -> (a mod (m * b)) mod b = a mod b.
Proof.
  intros M B. rewrite (N.mul_comm m b), N.mod_mul_r by lia.
  rewrite (N.mul_comm b (_ mod m)), N.mod_add by lia. apply N.mod_mod. lia.
Qed.
Lemma whole_num d : uts_f d = 0 -> uts_num d = d_int d * uts_den d.
Proof. intro Z. unfold uts_num. now rewrite Z, N.add_0_r. Qed.
Lemma eqb_scale a k b : 0 < b -> (a * b =? k * b) = (a =? k).
Proof. intro B. destruct (N.eqb_spec a k) as [->|E]; [apply N.eqb_refl|]. apply N.eqb_neq. nia. Qed.
Lemma leb_scale a k b : 0 < b -> (a * b <=? k * b) = (a <=? k).
Proof. intro B. destruct (N.leb_spec a k), (N.leb_spec (a * b) (k * b)); auto; nia. Qed.

Lemma code_item_agrees ex po d it : represents po d -> proper d -> item_moderate it ->
  (ex_operand ex = ON -> ex_modulus ex = None) ->
  code_item ex po it = item_in (uts_expr ex d) it.
Proof.
  intros R P M C. destruct ex as [o m]. cbn [ex_operand ex_modulus] in C.
  assert (G : o <> ON -> forall a, code_operand o po = a -> uts_operand o d = (a, 1) ->
    code_item (mkExpr o m) po it = item_in (uts_expr (mkExpr o m) d) it).
  { intros NO a A U. assert (X : uts_expr (mkExpr o m) d = (reduced m a, 1)).
    { unfold uts_expr. cbn [ex_operand ex_modulus]. rewrite U. destruct m; cbn [reduced]; [now rewrite N.mul_1_r|reflexivity]. }
    rewrite X. destruct it as [r|v]; cbn [code_item item_in].
    - rewrite N.mod_1_r, !N.mul_1_r. cbn [N.eqb andb]. unfold code_range, between, no_fraction, plain_n, on_n. cbn [ex_operand ex_modulus].
      destruct o; try easy; rewrite A, Bool.andb_true_r; reflexivity.
    - rewrite N.mul_1_r. unfold code_value, plain_n. cbn [ex_operand ex_modulus]. destruct o; try easy; now rewrite A. }
  pose proof (den_pos d) as D.
  destruct o.
  - rewrite (C eq_refl). clear G C. unfold uts_expr. cbn [ex_operand ex_modulus uts_operand].
    destruct it as [r|v]; cbn [code_item item_in item_moderate] in *.
    + unfold code_range, no_fraction, plain_n, on_n, between. cbn [ex_operand ex_modulus].
      rewrite (num_mod d P), (rp_i _ _ R), (rp_f _ _ R). destruct (N.eqb_spec (uts_f d) 0) as [Z|Z].
      * rewrite (whole_num d Z), !leb_scale by exact D. unfold uts_i. cbn [andb]. now rewrite Bool.andb_true_r.
      * cbn [andb]. now rewrite Bool.andb_false_r.
    + unfold code_value, plain_n. cbn [ex_operand ex_modulus]. apply (rp_eq _ _ R). change (2 ^ 49) with 562949953421312 in M. lia.
  - apply (G ltac:(easy) (op_i po)); [reflexivity|]. cbn. now rewrite (rp_i _ _ R).
  - apply (G ltac:(easy) (op_v po)); [reflexivity|]. cbn. now rewrite (rp_v _ _ R).
  - apply (G ltac:(easy) (op_w po)); [reflexivity|]. cbn. now rewrite (rp_w _ _ R).
  - apply (G ltac:(easy) (op_f po)); [reflexivity|]. cbn. now rewrite (rp_f _ _ R).
  - apply (G ltac:(easy) (op_t po)); [reflexivity|]. cbn. now rewrite (rp_t _ _ R).
Qed.

(** a remainder of [n] is an integer only if [n] is *)
Lemma mod_fraction m d it : 0 < m -> proper d -> uts_f d <> 0 -> item_in (uts_expr (mkExpr ON (Some m)) d) it = false.
Proof.
  intros M P F. pose proof (den_pos d) as D. unfold uts_expr. cbn [ex_operand ex_modulus uts_operand].
  pose proof (mod_frac (uts_num d) m (uts_den d) M D) as Q. rewrite (num_mod d P) in Q.
  destruct it as [r|v]; cbn [item_in].
  - rewrite Q. apply N.eqb_neq in F. now rewrite F.
  - apply N.eqb_neq. intro E. rewrite E, N.mod_mul in Q by lia. congruence.
Qed.
Lemma mod_whole m d it : 0 < m -> proper d -> uts_f d = 0 ->
  item_in (uts_expr (mkExpr ON (Some m)) d) it =
  match it with RValue v => d_int d mod m =? v | RRange r => between (lower_val r) (d_int d mod m) (upper_val r) end.
Proof.
  intros M P F. pose proof (den_pos d) as D. unfold uts_expr. cbn [ex_operand ex_modulus uts_operand].
  rewrite (whole_num d F), N.mul_mod_distr_r by lia. destruct it as [r|v]; cbn [item_in].
  - rewrite N.mod_mul, !leb_scale by lia. reflexivity.
  - now apply eqb_scale.
Qed.
Lemma code_mod m po d it : represents po d ->
  code_item (mkExpr ON (Some m)) po it =
  match it with RValue v => d_int d mod m =? v | RRange r => between (lower_val r) (d_int d) (upper_val r) end.
Proof.
  intro R. destruct it as [r|v]; cbn [code_item]; unfold code_range, code_value, no_fraction, plain_n, on_n; cbn [ex_operand ex_modulus].
  - rewrite (rp_i _ _ R), Bool.andb_true_r. reflexivity.
  - cbn [code_operand reduced]. now rewrite (rp_i _ _ R).
Qed.
Lemma code_not ex po it : plain_n ex = false \/ is_value it = true -> code_not_item ex po it = negb (code_item ex po it).
Proof.
  intros H. destruct it as [r|v]; [|reflexivity]. cbn [code_not_item code_item]. unfold no_fraction.
  destruct H as [->|H]; [|discriminate]. now rewrite !Bool.andb_true_r.
Qed.

(** ** One relation: as a test of membership *)
Definition flip (op : operator) (b : bool) : bool := xorb (is_negated op) b.
Lemma uts_flip r d : membership (rel_op r) ->
  uts_relation r d = flip (rel_op r) (existsb (item_in (uts_expr (rel_expr r) d)) (rel_list r)).
Proof.
  intros [A B]. unfold uts_relation, flip. destruct (rel_op r); cbn [is_negated]; try easy;
    now destruct (existsb _ _).
Qed.
Lemma forallb_negb {A} (f g : A -> bool) l : (forall x, In x l -> f x = negb (g x)) -> forallb f l = negb (existsb g l).
Proof.
  induction l as [|x l IH]; intro H; [reflexivity|]. cbn [forallb existsb]. rewrite (H x (or_introl eq_refl)), IH by (intros; apply H; now right).
  now destruct (g x).
Qed.
Lemma code_flip r po : membership (rel_op r) ->
  (is_negated (rel_op r) = true -> forall it, In it (rel_list r) -> plain_n (rel_expr r) = false \/ is_value it = true) ->
  code_relation po r = flip (rel_op r) (existsb (code_item (rel_expr r) po) (rel_list r)).
Proof.
  intros [A B] H. unfold code_relation, flip. destruct (rel_op r); cbn [is_negated] in *; try easy;
    try (now destruct (existsb _ _)); rewrite (forallb_negb _ (code_item (rel_expr r) po)); try reflexivity;
    intros x I; apply code_not, H; auto.
Qed.
Lemma flip_inj op a b : flip op a = flip op b -> a = b.
Proof. unfold flip. destruct (is_negated op), a, b; easy. Qed.
Lemma existsb_ext_in {A} (f g : A -> bool) l : (forall x, In x l -> f x = g x) -> existsb f l = existsb g l.
Proof. induction l as [|x l IH]; intro H; [reflexivity|]. cbn. rewrite (H x (or_introl eq_refl)), IH; [reflexivity|]. intros; apply H; now right. Qed.
Lemma existsb_none {A} (f : A -> bool) l : (forall x, In x l -> f x = false) -> existsb f l = false.
Proof. induction l as [|x l IH]; intro H; [reflexivity|]. cbn. rewrite (H x (or_introl eq_refl)), IH; [reflexivity|]. intros; apply H; now right. Qed.

Lemma moderate_in r it : moderate r -> In it (rel_list r) -> item_moderate it.
Proof. intros [_ F]. rewrite Forall_forall in F. apply F. Qed.

(** the faithful relations are right *)
Lemma faithful_right r po d : membership (rel_op r) -> moderate r -> faithful r -> represents po d -> proper d ->
  code_relation po r = uts_relation r d.
Proof.
  intros Mb Mo Fa R P. rewrite (uts_flip r d Mb). unfold faithful in Fa. destruct r as [[o m] op l].
  cbn [rel_expr rel_op rel_list ex_operand ex_modulus] in *.
  assert (G : (o = ON -> m = None) -> (o = ON -> is_negated op = true -> forall rg, ~ In (RRange rg) l) ->
    code_relation po (mkRel (mkExpr o m) op l) = flip op (existsb (item_in (uts_expr (mkExpr o m) d)) l)).
  { intros A B. rewrite code_flip; cbn [rel_expr rel_op rel_list]; auto.
    - f_equal. apply existsb_ext_in. intros it I. apply code_item_agrees; auto. now apply (moderate_in _ _ Mo).
    - intros N it I. destruct o; try (left; reflexivity). right. destruct it as [rg|v]; [|reflexivity]. now destruct (B eq_refl N rg). }
  destruct o; try (apply G; easy). destruct m as [m|]; [|now apply G].
  rewrite code_flip by (cbn [rel_expr rel_op rel_list]; auto). cbn [rel_expr rel_op rel_list]. f_equal.
  destruct Mo as [[M0 _] _]. rewrite Forall_forall in Fa.
  rewrite !existsb_none; auto; intros it I; specialize (Fa it I).
  - destruct (N.eq_dec (uts_f d) 0) as [Z|Z]; [|now apply mod_fraction].
    rewrite mod_whole by assumption. pose proof (N.mod_lt (d_int d) m). destruct it as [rg|v]; cbn [dead] in Fa.
    + unfold between. destruct (N.leb_spec (lower_val rg) (d_int d mod m)), (N.leb_spec (d_int d mod m) (upper_val rg)); auto; lia.
    + apply N.eqb_neq. lia.
  - rewrite (code_mod m po d it R). pose proof (N.mod_lt (d_int d) m). destruct it as [rg|v]; cbn [dead] in Fa.
    + unfold between. destruct (N.leb_spec (lower_val rg) (d_int d)), (N.leb_spec (d_int d) (upper_val rg)); auto; lia.
    + apply N.eqb_neq. lia.
Qed.
(** and on integers *)
Lemma faithful_right_int r po d : membership (rel_op r) -> moderate r -> faithful_on_integers r ->
  represents po d -> proper d -> uts_f d = 0 -> code_relation po r = uts_relation r d.
Proof.
  intros Mb Mo Fa R P F. destruct r as [[o m] op l]. unfold faithful_on_integers in Fa.
  cbn [rel_expr rel_op rel_list ex_operand ex_modulus] in *.
  destruct o; try (now apply faithful_right). destruct m as [m|].
  - rewrite uts_flip by exact Mb. rewrite code_flip by (cbn [rel_expr rel_op rel_list]; auto). cbn [rel_expr rel_op rel_list]. f_equal.
    destruct Mo as [[M0 _] _]. apply Bool.eq_true_iff_eq. rewrite !existsb_exists. split; intros (it & I & T).
    + rewrite (code_mod m po d it R) in T. destruct it as [rg|v].
      * unfold between in T. apply andb_prop in T as [T1 T2]. apply N.leb_le in T1, T2.
        exists (RValue (d_int d mod m)). split; [now apply (Fa rg)|]. rewrite mod_whole by assumption. apply N.eqb_refl.
      * exists (RValue v). split; [assumption|]. now rewrite mod_whole.
    + rewrite mod_whole in T by assumption. destruct it as [rg|v].
      * unfold between in T. apply andb_prop in T as [T1 T2]. apply N.leb_le in T1, T2.
        exists (RValue (d_int d mod m mod m)). split; [now apply (Fa rg)|]. rewrite (code_mod m po d _ R), N.mod_mod by lia. apply N.eqb_refl.
      * exists (RValue v). split; [assumption|]. now rewrite (code_mod m po d _ R).
  - (* plain n: the test of f succeeds *)
    destruct (is_negated op) eqn:N; [|apply faithful_right; auto; cbn; now rewrite N].
    rewrite uts_flip by exact Mb. cbn [rel_expr rel_op rel_list]. unfold flip. rewrite N.
    rewrite <- (existsb_ext_in (code_item (mkExpr ON None) po)).
    + unfold code_relation. cbn [rel_expr rel_op rel_list].
      assert (Q : forallb (code_not_item (mkExpr ON None) po) l = xorb true (existsb (code_item (mkExpr ON None) po) l)).
      { rewrite (forallb_negb _ (code_item (mkExpr ON None) po)); [now destruct (existsb _ _)|].
        intros [rg|v] I; [|reflexivity]. cbn [code_not_item code_item]. unfold no_fraction. cbn [plain_n ex_operand ex_modulus].
        rewrite (rp_f _ _ R), F. cbn [N.eqb]. now rewrite !Bool.andb_true_r. }
      destruct Mb as [M1 M2]. destruct op; try easy.
    + intros it I. apply code_item_agrees; auto. now apply (moderate_in _ _ Mo).
Qed.

(** ** The others are wrong *)
Lemma half_represents x : x < 2 ^ 49 -> exists s po, numeral s (mkDecimal x [5]) /\ small (mkDecimal x [5]) /\
  operands_from_str s = Ok po /\ represents po (mkDecimal x [5]).
Proof.
  intro H. assert (S : small (mkDecimal x [5])).
  { split; [|cbn; lia]. change (uts_num (mkDecimal x [5])) with (x * 10 + 5).
    change (2 ^ 49) with 562949953421312 in H. change (2 ^ 53) with 9007199254740992. lia. }
  exists (dec_of_N x ++ bs ".5"). destruct (numeral_represents _ _ (dec_half_numeral x) S) as (po & E & R).
  exists po. auto using dec_half_numeral.
Qed.
Lemma half_proper x : proper (mkDecimal x [5]).
Proof. repeat constructor. Qed.
Lemma half_f x : uts_f (mkDecimal x [5]) <> 0.
Proof. discriminate. Qed.

Lemma unfaithful_wrong r : membership (rel_op r) -> moderate r -> ~ faithful r ->
  exists s d po, numeral s d /\ small d /\ operands_from_str s = Ok po /\ represents po d /\ code_relation po r <> uts_relation r d.
Proof.
  intros Mb Mo Fa. destruct r as [[o m] op l]. unfold faithful in Fa. cbn [rel_expr rel_op rel_list ex_operand ex_modulus] in *.
  destruct o; try (exfalso; apply Fa; constructor). destruct m as [m|].
  - assert (X : exists it, In it l /\ ~ dead m it).
    { destruct (Forall_dec (dead m) (dead_dec m) l) as [F|F]; [easy|].
      destruct (existsb (fun it => if dead_dec m it then false else true) l) eqn:E.
      - apply existsb_exists in E as (it & I & D). exists it. split; [assumption|]. now destruct (dead_dec m it).
      - exfalso. apply F. apply Forall_forall. intros it I. destruct (dead_dec m it) as [|D]; [assumption|exfalso].
        rewrite <- Bool.not_true_iff_false in E. apply E. apply existsb_exists. exists it. split; [assumption|]. now destruct (dead_dec m it). }
    destruct X as (it & I & D). pose proof (moderate_in _ _ Mo I) as B.
    set (x := match it with RRange rg => lower_val rg | RValue v => v end).
    assert (Hx : x < 2 ^ 49) by (subst x; destruct it; cbn [item_moderate] in B; tauto).
    destruct (half_represents x Hx) as (s & po & Nm & Sm & E & R).
    exists s, (mkDecimal x [5]), po. repeat (split; [assumption|]).
    rewrite uts_flip by exact Mb. rewrite code_flip by (cbn [rel_expr rel_op rel_list]; auto). cbn [rel_expr rel_op rel_list].
    intro Q. apply flip_inj in Q. destruct Mo as [[M0 _] _].
    rewrite (existsb_none (item_in _)) in Q by (intros; apply mod_fraction; auto using half_proper, half_f).
    rewrite <- Bool.not_true_iff_false in Q. apply Q. apply existsb_exists. exists it. split; [assumption|].
    rewrite (code_mod m po _ it R). cbn [d_int]. subst x. destruct it as [rg|v]; cbn [dead] in D.
    + unfold between. apply andb_true_intro. split; apply N.leb_le; lia.
    + apply N.eqb_eq, N.mod_small. lia.
  - assert (X : is_negated op = true /\ exists rg, In (RRange rg) l).
    { destruct (is_negated op) eqn:N; [|exfalso; apply Fa; discriminate]. split; [reflexivity|].
      destruct (existsb (fun it => negb (is_value it)) l) eqn:E.
      - apply existsb_exists in E as ([rg|v] & I & V); [eauto|discriminate].
      - exfalso. apply Fa. intros _ rg I. rewrite <- Bool.not_true_iff_false in E. apply E. apply existsb_exists. eauto. }
    destruct X as (N & rg & I).
    destruct (half_represents 0 ltac:(easy)) as (s & po & Nm & Sm & E & R).
    exists s, (mkDecimal 0 [5]), po. repeat (split; [assumption|]).
    rewrite uts_flip by exact Mb. cbn [rel_expr rel_op rel_list]. unfold flip. rewrite N.
    assert (V : forall it, item_moderate it -> item_in (uts_expr (mkExpr ON None) (mkDecimal 0 [5])) it = false).
    { intros [r|v] _; unfold uts_expr; cbn [ex_operand ex_modulus uts_operand item_in].
      - rewrite (num_mod _ (half_proper 0)). reflexivity.
      - apply N.eqb_neq. change (uts_num (mkDecimal 0 [5])) with 5. change (uts_den (mkDecimal 0 [5])) with 10. lia. }
    rewrite existsb_none by (intros it J; apply V, (moderate_in _ _ Mo J)).
    assert (C : forallb (code_not_item (mkExpr ON None) po) l = false).
    { apply Bool.not_true_iff_false. intro T. rewrite forallb_forall in T. specialize (T _ I). cbn [code_not_item] in T.
      unfold no_fraction in T. cbn [plain_n ex_operand ex_modulus] in T. rewrite (rp_f _ _ R) in T.
      change (uts_f (mkDecimal 0 [5])) with 5 in T. cbn [N.eqb] in T. now rewrite Bool.andb_false_r in T. }
    unfold code_relation. cbn [rel_expr rel_op rel_list]. destruct Mb as [M1 M2]. destruct op; try easy; rewrite C; discriminate.
Qed.

(** a bound on what ranges cover *)
Lemma above_ranges l : Forall item_moderate l ->
  exists H, H < 2 ^ 49 /\ forall rg, In (RRange rg) l -> upper_val rg <= H.
Proof.
  induction 1 as [|it l M F (H & B & U)]; [exists 0; split; [easy|intros rg []]|].
  exists (N.max H (match it with RRange rg => upper_val rg | RValue _ => 0 end)). split.
  - destruct it as [rg|v]; cbn [item_moderate] in M; lia.
  - intros rg [->|I]; [lia|]. specialize (U rg I). lia.
Qed.
Lemma unfaithful_wrong_int r : membership (rel_op r) -> moderate r -> ~ faithful_on_integers r ->
  exists x, x < 2 ^ 53 /\ code_relation (operands_from_unsigned x) r <> uts_relation r (mkDecimal x []).
Proof.
  intros Mb Mo Fa. destruct r as [[o m] op l]. unfold faithful_on_integers in Fa. cbn [rel_expr rel_op rel_list ex_operand ex_modulus] in *.
  destruct o; try (exfalso; apply Fa; constructor). destruct m as [m|]; [|exfalso; apply Fa; constructor].
  assert (RP : forall x, x < 2 ^ 53 -> represents (operands_from_unsigned x) (mkDecimal x [])).
  { intros x H. apply unsigned_represents. change (2 ^ 64) with 18446744073709551616. change (2 ^ 53) with 9007199254740992 in H. lia. }
  assert (PR : forall x, proper (mkDecimal x [])) by constructor.
  destruct Mo as [[M0 M1] MF]. cbn [rel_list] in MF.
  assert (BR : forall x, x < 2 ^ 53 -> (code_relation (operands_from_unsigned x) (mkRel (mkExpr ON (Some m)) op l) =
      uts_relation (mkRel (mkExpr ON (Some m)) op l) (mkDecimal x [])) ->
    existsb (fun it => match it with RValue v => x mod m =? v | RRange r => between (lower_val r) x (upper_val r) end) l =
    existsb (fun it => match it with RValue v => x mod m =? v | RRange r => between (lower_val r) (x mod m) (upper_val r) end) l).
  { intros x H Q. rewrite uts_flip in Q by exact Mb. rewrite code_flip in Q by (cbn [rel_expr rel_op rel_list]; auto).
    cbn [rel_expr rel_op rel_list] in Q. apply flip_inj in Q.
    rewrite (existsb_ext_in _ _ l (fun it _ => code_mod m _ _ it (RP x H))) in Q.
    eapply eq_trans; [exact Q|]. apply existsb_ext_in. intros it _. exact (mod_whole m (mkDecimal x []) it M0 (PR x) eq_refl). }
  destruct (above_ranges l MF) as (H & HB & HU).
  (* a range item x whose remainder is not listed *)
  assert (DEC : forall x, {In (RValue (x mod m)) l} + {~ In (RValue (x mod m)) l}).
  { intro x. apply in_dec. decide equality; [|apply N.eq_dec]. decide equality; apply N.eq_dec. }
  assert (X : exists rg x, In (RRange rg) l /\ lower_val rg <= x <= upper_val rg /\ ~ In (RValue (x mod m)) l).
  { set (bad := fun rg => existsb (fun k => if DEC (lower_val rg + N.of_nat k) then false else true)
                            (seq 0 (N.to_nat (upper_val rg + 1 - lower_val rg)))).
    destruct (existsb (fun it => match it with RRange rg => bad rg | RValue _ => false end) l) eqn:E.
    - apply existsb_exists in E as ([rg|v] & I & B); [|discriminate]. unfold bad in B. apply existsb_exists in B as (k & K & B).
      apply in_seq in K. destruct (DEC (lower_val rg + N.of_nat k)) as [|B']; [discriminate|].
      exists rg, (lower_val rg + N.of_nat k). split; [assumption|]. split; [lia|assumption].
    - exfalso. apply Fa. intros rg x I B. destruct (DEC x) as [|NI]; [assumption|exfalso].
      rewrite <- Bool.not_true_iff_false in E. apply E. apply existsb_exists. exists (RRange rg). split; [assumption|].
      unfold bad. apply existsb_exists. exists (N.to_nat (x - lower_val rg)). split; [apply in_seq; lia|].
      rewrite N2Nat.id. replace (lower_val rg + (x - lower_val rg)) with x by lia. now destruct (DEC x). }
  destruct X as (rg & x & I & B & NI).
  assert (Hx : x <= H) by (specialize (HU rg I); lia).
  change (2 ^ 49) with 562949953421312 in *. change (2 ^ 53) with 9007199254740992 in *.
  pose proof (N.mod_lt x m ltac:(lia)) as Hr.
  (* is the remainder itself in a range? *)
  destruct (existsb (fun it => match it with RValue v => false | RRange r => between (lower_val r) (x mod m) (upper_val r) end) l) eqn:E.
  - (* then a large number with that remainder is wrong *)
    apply existsb_exists in E as ([rg'|v] & I' & T); [|discriminate].
    set (k := H / m + 1). set (z := x mod m + k * m).
    assert (KZ : H < k * m /\ k * m <= H + m).
    { pose proof (N.div_mod H m ltac:(lia)) as DM. pose proof (N.mod_lt H m ltac:(lia)). subst k. nia. }
    assert (ZM : z mod m = x mod m) by (subst z; rewrite N.mod_add by lia; apply N.mod_mod; lia).
    assert (ZB : z < 9007199254740992) by (subst z; lia).
    exists z. split; [assumption|]. intro Q. apply (BR z ZB) in Q. rewrite ZM in Q.
    assert (R1 : existsb (fun it => match it with RValue v => x mod m =? v | RRange r => between (lower_val r) (x mod m) (upper_val r) end) l = true)
      by (apply existsb_exists; exists (RRange rg'); auto).
    rewrite R1 in Q. apply existsb_exists in Q as ([r2|v] & I2 & T2).
    + unfold between in T2. apply andb_prop in T2 as [_ T2]. apply N.leb_le in T2. specialize (HU r2 I2). subst z. lia.
    + apply N.eqb_eq in T2. subst v. now apply NI.
  - (* then x itself is wrong *)
    exists x. split; [lia|]. intro Q. apply (BR x ltac:(lia)) in Q.
    assert (L1 : existsb (fun it => match it with RValue v => x mod m =? v | RRange r => between (lower_val r) x (upper_val r) end) l = true).
    { apply existsb_exists. exists (RRange rg). split; [assumption|]. unfold between. apply andb_true_intro; split; apply N.leb_le; lia. }
    rewrite L1 in Q. symmetry in Q. apply existsb_exists in Q as ([r2|v] & I2 & T2).
    + rewrite <- Bool.not_true_iff_false in E. apply E. apply existsb_exists. exists (RRange r2). auto.
    + apply N.eqb_eq in T2. subst v. now apply NI.
Qed.

(** ** The generated code *)
Lemma moderate_fits r : membership (rel_op r) -> moderate r -> code_relation_fits r = true.
Proof.
  intros [A B] [M F]. assert (MF : modulus_fits (rel_expr r) = true).
  { unfold modulus_fits. destruct (ex_modulus (rel_expr r)) as [m|]; [|reflexivity].
    change (2 ^ 49) with 562949953421312 in M. change (2 ^ 64) with 18446744073709551616.
    apply andb_true_intro. split; [|apply N.ltb_lt; lia]. destruct (N.eqb_spec m 0); [lia|reflexivity]. }
  assert (G : forallb (code_item_fits (rel_expr r)) (rel_list r) = true).
  { apply forallb_forall. intros it I. rewrite Forall_forall in F. specialize (F it I).
    unfold code_item_fits. rewrite MF. unfold literal_fits.
    change (2 ^ 64) with 18446744073709551616. change (2 ^ 49) with 562949953421312 in F.
    destruct it as [rg|v]; cbn [item_moderate] in F.
    - rewrite Bool.orb_true_r. cbn [andb]. apply andb_true_intro; split; apply N.ltb_lt; lia.
    - cbn [andb]. apply Bool.orb_true_iff. right. apply N.ltb_lt. lia. }
  unfold code_relation_fits. destruct (rel_op r); try easy.
Qed.

Lemma C103_lemma r : membership (rel_op r) -> rel_list r <> [] -> moderate r ->
  exists ts e, gen_pr [[r]] = Ok ts /\ read_bexpr ts = Some e /\
    ((forall s d po, numeral s d -> small d -> operands_from_str s = Ok po -> eval e po = Ok (uts_relation r d)) <-> faithful r) /\
    ((forall x, x < 2 ^ 53 -> eval e (operands_from_unsigned x) = Ok (uts_relation r (mkDecimal x []))) <-> faithful_on_integers r).
Proof.
  intros Mb NE Mo.
  assert (NG : no_gaps [[r]]) by (split; [easy|]; repeat constructor; easy).
  assert (L : lacks_ranges [[r]] = false).
  { unfold lacks_ranges, lacks_range. cbn [existsb]. destruct Mb as [A B]. destruct (rel_op r); try easy. }
  destruct (C91_lemma [[r]] NG L) as (ts & e & G & RE & _ & EV). exists ts, e. split; [assumption|]. split; [assumption|].
  assert (V : forall po, eval e po = Ok (code_relation po r)).
  { intro po. rewrite EV.
    - unfold code_condition. cbn [existsb forallb]. now rewrite Bool.andb_true_r, Bool.orb_false_r.
    - unfold code_fits. cbn [forallb]. now rewrite (moderate_fits r Mb Mo). }
  split; split.
  - intro H. assert (D : {faithful r} + {~ faithful r}).
    { unfold faithful. destruct (ex_operand (rel_expr r)); auto. destruct (ex_modulus (rel_expr r)) as [m|].
      - apply Forall_dec, dead_dec.
      - destruct (is_negated (rel_op r)); [|left; discriminate].
        destruct (existsb (fun it => negb (is_value it)) (rel_list r)) eqn:E.
        + right. intro H'. apply existsb_exists in E as ([rg|v] & I & Q); [|discriminate]. now apply (H' eq_refl rg).
        + left. intros _ rg I. rewrite <- Bool.not_true_iff_false in E. apply E. apply existsb_exists. exists (RRange rg). now split. }
    destruct D as [|D]; [assumption|exfalso].
    destruct (unfaithful_wrong r Mb Mo D) as (s & d & po & Nm & Sm & E & _ & Q). specialize (H s d po Nm Sm E).
    rewrite V in H. congruence.
  - intros Fa s d po Nm Sm E. rewrite V. f_equal. apply faithful_right; auto.
    + now apply (represents_str s).
    + now apply (numeral_proper s).
  - intro H. unfold faithful_on_integers. destruct (ex_operand (rel_expr r)) eqn:O; auto. destruct (ex_modulus (rel_expr r)) as [m|] eqn:M; auto.
    intros rg x I B.
    assert (DEC : {In (RValue (x mod m)) (rel_list r)} + {~ In (RValue (x mod m)) (rel_list r)}).
    { apply in_dec. decide equality; [|apply N.eq_dec]. decide equality; apply N.eq_dec. }
    destruct DEC as [|D]; [assumption|exfalso].
    destruct (unfaithful_wrong_int r Mb Mo) as (y & Y & Q).
    { unfold faithful_on_integers. rewrite O, M. intro K. apply D. now apply (K rg). }
    specialize (H y Y). rewrite V in H. congruence.
  - intros Fa x X. rewrite V. f_equal. apply faithful_right_int; auto; [|constructor].
    apply unsigned_represents. change (2 ^ 64) with 18446744073709551616. change (2 ^ 53) with 9007199254740992 in X. lia.
Qed.

(** ** The shipped data: a locale is wrong on integers exactly if one of its
    relations is *)
Definition relation_of (rules : list (category * condition)) (r : relation) : Prop :=
  exists c cond a, In (c, cond) rules /\ In a cond /\ In r a.
Definition listed (v : N) (l : range_list) : bool := existsb (fun it => match it with RValue w => w =? v | _ => false end) l.
Lemma listed_in v l : listed v l = true <-> In (RValue v) l.
Proof.
  unfold listed. rewrite existsb_exists. split.
  - intros ([r|w] & I & T); [discriminate|]. apply N.eqb_eq in T. now subst.
  - intro I. exists (RValue v). split; [assumption|apply N.eqb_refl].
Qed.
Definition faithful_intb (r : relation) : bool :=
  match ex_operand (rel_expr r), ex_modulus (rel_expr r) with
  | ON, Some m => forallb (fun it => match it with
      | RValue _ => true
      | RRange rg => forallb (fun k => listed ((lower_val rg + N.of_nat k) mod m) (rel_list r))
                       (seq 0 (N.to_nat (upper_val rg + 1 - lower_val rg)))
      end) (rel_list r)
  | _, _ => true
  end.
Lemma faithful_intb_iff r : faithful_intb r = true <-> faithful_on_integers r.
Proof.
  unfold faithful_intb, faithful_on_integers. destruct (ex_operand (rel_expr r)); try (split; auto; fail).
  destruct (ex_modulus (rel_expr r)) as [m|]; [|split; auto]. rewrite forallb_forall. split.
  - intros H rg x I B. specialize (H _ I). cbn beta iota in H. rewrite forallb_forall in H.
    specialize (H (N.to_nat (x - lower_val rg))). rewrite N2Nat.id in H.
    replace (lower_val rg + (x - lower_val rg)) with x in H by lia. apply listed_in, H. apply in_seq. lia.
  - intros H [rg|v] I; [|reflexivity]. apply forallb_forall. intros k K. apply in_seq in K. apply listed_in, (H rg); [assumption|lia].
Qed.
Definition faithfulb (r : relation) : bool :=
  match ex_operand (rel_expr r), ex_modulus (rel_expr r) with
  | ON, None => negb (is_negated (rel_op r)) || forallb is_value (rel_list r)
  | ON, Some m => forallb (fun it => if dead_dec m it then true else false) (rel_list r)
  | _, _ => true
  end.
Lemma faithfulb_iff r : faithfulb r = true <-> faithful r.
Proof.
  unfold faithfulb, faithful. destruct (ex_operand (rel_expr r)); try (split; auto; fail).
  destruct (ex_modulus (rel_expr r)) as [m|].
  - rewrite forallb_forall, Forall_forall. split; intros H it I; specialize (H it I); now destruct (dead_dec m it).
  - rewrite Bool.orb_true_iff, forallb_forall. split.
    + intros [H|H] N rg I; [now rewrite N in H|]. now specialize (H _ I).
    + intro H. destruct (is_negated (rel_op r)); [right|now left]. intros [rg|v] I; [|reflexivity]. now destruct (H eq_refl rg).
Qed.
Definition any_relation (p : relation -> bool) (rules : list (category * condition)) : bool :=
  existsb (fun '(_, cond) => existsb (existsb p) cond) rules.
Lemma any_relation_iff p rules : any_relation p rules = true <-> exists r, relation_of rules r /\ p r = true.
Proof.
  unfold any_relation, relation_of. rewrite existsb_exists. split.
  - intros ((c & cond) & I & T). apply existsb_exists in T as (a & J & T). apply existsb_exists in T as (r & K & T).
    exists r. split; [|assumption]. now exists c, cond, a.
  - intros (r & (c & cond & a & I & J & K) & T). exists (c, cond). split; [assumption|].
    apply existsb_exists. exists a. split; [assumption|]. apply existsb_exists. eauto.
Qed.

Lemma unfaithful_locales t id rules : In (id, rules) (cldr t) ->
  (In id (integer_wrong t) <-> exists r, relation_of rules r /\ ~ faithful_on_integers r).
Proof.
  assert (A : forallb (fun '(id, rules) => Bool.eqb (mem id (integer_wrong t)) (any_relation (fun r => negb (faithful_intb r)) rules)) (cldr t) = true)
    by (destruct t; vm_compute; reflexivity).
  intro I. rewrite forallb_forall in A. specialize (A _ I). cbn beta iota in A. apply Bool.eqb_prop in A.
  rewrite <- mem_in, A, any_relation_iff. split; intros (r & R & T); exists r; (split; [assumption|]).
  - rewrite <- faithful_intb_iff. intro E. now rewrite E in T.
  - destruct (faithful_intb r) eqn:E; [|reflexivity]. now apply faithful_intb_iff in E.
Qed.
Lemma C103_locales_lemma t id rules : In (id, rules) (cldr t) ->
  ((exists s d pr c, numeral s d /\ small d /\ integral d = true /\ create Halving id t = Ok pr /\
      select W64 pr (InStr s) = Ok c /\ ~ cldr_select rules d c) <->
   exists r, relation_of rules r /\ ~ faithful_on_integers r).
Proof.
  intro I. rewrite <- (unfaithful_locales t id rules I). split.
  - intros (s & d & pr & c & Nm & Sm & In & C & S & W).
    destruct (mem id (integer_wrong t)) eqn:M; [now apply mem_in|exfalso].
    destruct (follows_str Halving id t pr W64 s d C Nm Sm) as (rules' & c' & I' & S' & F).
    { intro J. apply mem_in in J. congruence. }
    { now intros _. }
    rewrite (cldr_unique t id _ _ I' I) in F. congruence.
  - intro J. destruct (integer_wrong_witness t id J) as (s & d & Nm & Sm & In & pr & rules' & c & C & I' & S & W).
    rewrite (cldr_unique t id _ _ I' I) in W. exists s, d, pr, c. auto 8.
Qed.

(** With fractions: the two exceptions look at [n % 10] for integers only. *)
Definition guarded (t : pr_type) : list langid := match t with CARDINAL => [lang "he"; lang "iw"] | ORDINAL => [] end.
Lemma unfaithful_fractions t id rules : In (id, rules) (cldr t) ->
  (In id (integer_wrong t) \/ In id (fraction_wrong t) \/ In id (guarded t) <-> exists r, relation_of rules r /\ ~ faithful r).
Proof.
  assert (A : forallb (fun '(id, rules) => Bool.eqb (mem id (integer_wrong t) || (mem id (fraction_wrong t) || mem id (guarded t)))
      (any_relation (fun r => negb (faithfulb r)) rules)) (cldr t) = true)
    by (destruct t; vm_compute; reflexivity).
  intro I. rewrite forallb_forall in A. specialize (A _ I). cbn beta iota in A. apply Bool.eqb_prop in A.
  rewrite <- !mem_in, <- !Bool.orb_true_iff, A, any_relation_iff. split; intros (r & R & T); exists r; (split; [assumption|]).
  - rewrite <- faithfulb_iff. intro E. now rewrite E in T.
  - destruct (faithfulb r) eqn:E; [|reflexivity]. now apply faithfulb_iff in E.
Qed.
Lemma C103_fractions_lemma t id rules : In (id, rules) (cldr t) -> ~ In id (guarded t) ->
  ((exists s d pr c, numeral s d /\ small d /\ create Halving id t = Ok pr /\
      select W64 pr (InStr s) = Ok c /\ ~ cldr_select rules d c) <->
   exists r, relation_of rules r /\ ~ faithful r).
Proof.
  intros I NG. rewrite <- (unfaithful_fractions t id rules I). split.
  - intros (s & d & pr & c & Nm & Sm & C & S & W).
    destruct (mem id (integer_wrong t)) eqn:M; [left; now apply mem_in|].
    destruct (mem id (fraction_wrong t)) eqn:M'; [right; left; now apply mem_in|exfalso].
    destruct (follows_str Halving id t pr W64 s d C Nm Sm) as (rules' & c' & I' & S' & F).
    { intro J. apply mem_in in J. congruence. }
    { intro J. apply mem_in in J. congruence. }
    rewrite (cldr_unique t id _ _ I' I) in F. congruence.
  - intros [J|[J|J]]; [| |now destruct NG].
    + destruct (integer_wrong_witness t id J) as (s & d & Nm & Sm & In & pr & rules' & c & C & I' & S & W).
      rewrite (cldr_unique t id _ _ I' I) in W. exists s, d, pr, c. auto 8.
    + destruct (fraction_wrong_witness t id J) as (s & d & Nm & Sm & pr & rules' & c & C & I' & S & W).
      rewrite (cldr_unique t id _ _ I' I) in W. exists s, d, pr, c. auto 8.
Qed.
