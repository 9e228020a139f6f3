(** * C123: exactly which [within] relations are generated faithfully *)
From Coq Require Import Lia Floats.SpecFloat.
From Verif Require Import Base F64 Operands Ast Tokens GenPr GenRs RustExpr Spec CodeSpec
  DigitFacts OperandsProps
  GenFacts GenMeaning CodeProps Represents Conformance ConformanceProps WithinProps Faithful Exclusive LengthProps.
Open Scope N_scope.

(** ** The criterion, from the AST alone *)
(** the integer [x] is in the item *)
Definition covers (it : range_list_item) (x : N) : Prop :=
  match it with RValue v => x = v | RRange r => lower_val r <= x <= upper_val r end.
(** the fractions between [x] and [x + 1] are in the item *)
Definition covers_up (it : range_list_item) (x : N) : Prop :=
  match it with RValue _ => False | RRange r => lower_val r <= x /\ x + 1 <= upper_val r end.
(** what the relation should say of [x], and of the fractions after it *)
Definition wanted (cov : range_list_item -> N -> Prop) (op : operator) (l : range_list) (x : N) : Prop :=
  match op with OpNotWithin => ~ exists it, In it l /\ cov it x | _ => exists it, In it l /\ cov it x end.
(** what the code tests: only the first range [rg], and for [not within] that [x] is
    below and above it at once *)
Definition tested (op : operator) (rg : range) (x : N) : Prop :=
  match op with OpNotWithin => x < lower_val rg /\ upper_val rg < x | _ => lower_val rg <= x <= upper_val rg end.
(** the numbers that can be left after the modulus *)
Definition residue (m : option N) (x : N) : Prop := match m with Some m => x < m | None => True end.
Definition within_right_int (r : relation) (rg : range) : Prop :=
  forall x, residue (ex_modulus (rel_expr r)) x -> (tested (rel_op r) rg x <-> wanted covers (rel_op r) (rel_list r) x).
(** with a modulus the code takes the integer part of [n] *)
Definition within_right (r : relation) (rg : range) : Prop :=
  within_right_int r rg /\
  match ex_operand (rel_expr r), ex_modulus (rel_expr r) with
  | ON, Some m => forall x, x < m -> (tested (rel_op r) rg x <-> wanted covers_up (rel_op r) (rel_list r) x)
  | _, _ => True
  end.
Definition a_within (op : operator) : Prop := op = OpWithin \/ op = OpNotWithin.
Definition on_value (r : relation) : Prop := ex_operand (rel_expr r) = ON \/ ex_operand (rel_expr r) = OI.

Lemma first_range_in l rg : first_range l = Some rg -> In (RRange rg) l.
Proof.
  induction l as [|[r|v] l IH]; cbn [first_range]; [discriminate| |].
  - intro E. left. congruence.
  - intro E. right. auto.
Qed.

(** ** One item *)
Lemma item_within_int x it : item_within (x, 1) it = true <-> covers it x.
Proof.
  destruct it as [r|v]; cbn [item_within covers].
  - rewrite Bool.andb_true_iff, !N.leb_le. lia.
  - rewrite N.eqb_eq. lia.
Qed.
Lemma item_within_whole x b it : 0 < b -> item_within (x * b, b) it = true <-> covers it x.
Proof.
  intro B. destruct it as [r|v]; cbn [item_within covers].
  - rewrite Bool.andb_true_iff, !leb_scale, !N.leb_le by assumption. tauto.
  - rewrite eqb_scale, N.eqb_eq by assumption. tauto.
Qed.
Lemma item_within_up x f b it : 0 < f < b -> item_within (x * b + f, b) it = true <-> covers_up it x.
Proof.
  intro B. destruct it as [r|v]; cbn [item_within covers_up].
  - rewrite Bool.andb_true_iff, !N.leb_le. split; intros [H1 H2]; split; nia.
  - rewrite N.eqb_eq. split; [|easy]. intro E. destruct (N.lt_trichotomy x v) as [L|[->|L]]; nia.
Qed.
Lemma wanted_of (cov : range_list_item -> N -> Prop) op l y x :
  a_within op -> (forall it, item_within y it = true <-> cov it x) ->
  (match op with OpNotWithin => negb (existsb (item_within y) l) | _ => existsb (item_within y) l end) = true <-> wanted cov op l x.
Proof.
  intros A H.
  assert (X : existsb (item_within y) l = true <-> exists it, In it l /\ cov it x).
  { rewrite existsb_exists. split; intros (it & I & T); exists it; (split; [assumption|]); now apply H. }
  destruct A as [-> | ->]; cbn [wanted]; [exact X|].
  rewrite Bool.negb_true_iff, <- Bool.not_true_iff_false. now rewrite X.
Qed.
Lemma uts_within r d : a_within (rel_op r) -> uts_relation r d =
  match rel_op r with OpNotWithin => negb (existsb (item_within (uts_expr (rel_expr r) d)) (rel_list r))
  | _ => existsb (item_within (uts_expr (rel_expr r) d)) (rel_list r) end.
Proof. intros [A|A]; unfold uts_relation; now rewrite A. Qed.

(** the code, where [n] is not compared as a float *)
Lemma code_tested r rg po : a_within (rel_op r) -> first_range (rel_list r) = Some rg -> plain_n (rel_expr r) = false ->
  code_relation po r = true <-> tested (rel_op r) rg (within_operand (rel_expr r) po).
Proof.
  intros A F P. unfold code_relation. rewrite F.
  destruct A as [-> | ->]; unfold code_within, code_not_within; rewrite P; cbn [tested]; unfold between.
  - now rewrite Bool.andb_true_iff, !N.leb_le.
  - now rewrite Bool.andb_true_iff, !N.ltb_lt.
Qed.
(** and where it is *)
Lemma code_plain_within rg po d : lower_val rg < 2 ^ 53 -> upper_val rg < 2 ^ 53 -> represents po d ->
  code_within (mkExpr ON None) rg po = item_within (uts_num d, uts_den d) (RRange rg).
Proof.
  intros L U R. unfold code_within. cbn [plain_n ex_operand ex_modulus item_within].
  now rewrite (rp_ge _ _ R _ L), (rp_le _ _ R _ U).
Qed.
Lemma SFcompare_antisym x y : SFcompare y x = match SFcompare x y with Some c => Some (CompOpp c) | None => None end.
Proof.
  destruct x as [[]|[]| |[] m e], y as [[]|[]| |[] m' e']; try reflexivity; cbn [SFcompare];
    rewrite (Z.compare_antisym e' e); destruct (Z.compare e' e); cbn [CompOpp]; try reflexivity;
    pose proof (Pos.compare_antisym m' m) as Q; unfold Pos.compare in Q; rewrite Q; destruct (Pos.compare_cont Eq m' m); reflexivity.
Qed.
Lemma code_plain_not_within rg po d : lower_val rg < 2 ^ 53 -> represents po d ->
  lower_val rg * uts_den d <= uts_num d -> code_not_within (mkExpr ON None) rg po = false.
Proof.
  intros L R G. unfold code_not_within. cbn [plain_n ex_operand ex_modulus].
  assert (H : SFltb (op_n po) (f64_of_N (lower_val rg)) = false); [|now rewrite H].
  pose proof (rp_ge _ _ R _ L) as Q. apply N.leb_le in G. rewrite G in Q.
  unfold SFltb. unfold SFleb in Q. rewrite SFcompare_antisym. destruct (SFcompare (f64_of_N (lower_val rg)) (op_n po)) as [[]|]; cbn [CompOpp]; easy.
Qed.

(** ** Right where the criterion holds *)
Lemma moderate_range r rg : moderate r -> first_range (rel_list r) = Some rg -> lower_val rg < 2 ^ 49 /\ upper_val rg < 2 ^ 49.
Proof. intros Mo F. exact (moderate_in _ _ Mo (first_range_in _ _ F)). Qed.

(** what decides: the number left and whether a fraction follows *)
Definition cov_of (r : relation) (d : decimal) : range_list_item -> N -> Prop :=
  match ex_operand (rel_expr r) with ON => if uts_f d =? 0 then covers else covers_up | _ => covers end.
Lemma uts_wanted r d : a_within (rel_op r) -> on_value r -> moderate r -> proper d ->
  uts_relation r d = true <-> wanted (cov_of r d) (rel_op r) (rel_list r) (reduced (ex_modulus (rel_expr r)) (d_int d)).
Proof.
  intros A V Mo P. rewrite uts_within by exact A. apply wanted_of; [exact A|]. intro it.
  destruct r as [[o m] op l]. unfold on_value, cov_of in *. cbn [rel_expr rel_op rel_list ex_operand ex_modulus] in *.
  pose proof (den_pos d) as D. destruct Mo as [M _]. cbn [rel_expr ex_modulus] in M.
  assert (F : uts_f d < uts_den d) by (rewrite <- (num_mod d P); apply N.mod_lt; lia).
  destruct V as [-> | ->]; unfold uts_expr; cbn [ex_operand ex_modulus uts_operand].
  - assert (X : (match m with None => (uts_num d, uts_den d) | Some m => (uts_num d mod (m * uts_den d), uts_den d) end) =
                (reduced m (d_int d) * uts_den d + uts_f d, uts_den d)).
    { destruct m as [m|]; cbn [reduced]; [|reflexivity]. now rewrite (num_mod' d m P). }
    rewrite X. destruct (N.eqb_spec (uts_f d) 0) as [Z|Z].
    + rewrite Z, N.add_0_r. now apply item_within_whole.
    + apply item_within_up. lia.
  - unfold uts_i. destruct m as [m|]; cbn [reduced]; [rewrite N.mul_1_r|]; apply item_within_int.
Qed.
Lemma reduced_residue r x : moderate r -> residue (ex_modulus (rel_expr r)) (reduced (ex_modulus (rel_expr r)) x).
Proof. intros [M _]. destruct (ex_modulus (rel_expr r)) as [m|]; cbn [residue reduced]; [apply N.mod_lt; lia|exact Logic.I]. Qed.
Lemma within_operand_value r po d : on_value r -> represents po d -> within_operand (rel_expr r) po = reduced (ex_modulus (rel_expr r)) (d_int d).
Proof.
  intros V R. unfold within_operand. destruct (ex_modulus (rel_expr r)); cbn [reduced]; rewrite <- ?(rp_i _ _ R); [now rewrite (rp_i _ _ R)|].
  pose proof (rp_i _ _ R) as Q. unfold uts_i in Q. destruct V as [-> | ->]; cbn [code_operand]; exact Q.
Qed.
Lemma bool_iff (a b : bool) (P Q : Prop) : (a = true <-> P) -> (b = true <-> Q) -> (a = b <-> (P <-> Q)).
Proof.
  intros H1 H2. split.
  - intros ->. rewrite <- H1, <- H2. reflexivity.
  - intro H. apply Bool.eq_iff_eq_true. now rewrite H1, H2.
Qed.

(** no [not within] without modulus meets the criterion *)
Lemma not_within_never r rg : moderate r -> first_range (rel_list r) = Some rg -> rel_op r = OpNotWithin ->
  ex_modulus (rel_expr r) = None -> ~ within_right_int r rg.
Proof.
  intros Mo F O M H. specialize (H (2 ^ 49)). rewrite M, O in H. cbn [residue tested wanted] in H.
  destruct (moderate_range r rg Mo F) as [L U]. destruct H as [_ H]; [exact Logic.I|].
  destruct H as [H _]; [|lia]. intros (it & I & C). pose proof (moderate_in _ _ Mo I) as B.
  destruct it as [r'|v]; cbn [covers item_moderate] in C, B; lia.
Qed.

Lemma within_value r rg po d : a_within (rel_op r) -> on_value r -> moderate r -> first_range (rel_list r) = Some rg ->
  plain_n (rel_expr r) = false -> represents po d -> proper d ->
  (code_relation po r = uts_relation r d <->
   let x := reduced (ex_modulus (rel_expr r)) (d_int d) in (tested (rel_op r) rg x <-> wanted (cov_of r d) (rel_op r) (rel_list r) x)).
Proof.
  intros A V Mo F PN R P. cbv zeta. apply bool_iff; [|now apply uts_wanted].
  rewrite <- (within_operand_value r po d V R). now apply code_tested.
Qed.
(** [n] without modulus *)
Lemma within_value_n r rg po d : rel_op r = OpWithin -> rel_expr r = mkExpr ON None -> moderate r -> first_range (rel_list r) = Some rg ->
  represents po d -> proper d ->
  (code_relation po r = uts_relation r d <->
   (cov_of r d (RRange rg) (d_int d) <-> wanted (cov_of r d) OpWithin (rel_list r) (d_int d))).
Proof.
  intros O E Mo F R P. destruct (moderate_range r rg Mo F) as [L U].
  change (2 ^ 49) with 562949953421312 in *.
  assert (A : a_within (rel_op r)) by (now left). assert (V : on_value r) by (left; now rewrite E).
  pose proof (uts_wanted r d A V Mo P) as W. rewrite E, O in W. cbn [ex_modulus reduced] in W.
  apply bool_iff; [|exact W].
  unfold code_relation. rewrite O, F, E.
  rewrite (code_plain_within rg po d) by (auto; change (2 ^ 53) with 9007199254740992; lia).
  (* the meaning of the relation with this range alone *)
  pose (r1 := mkRel (mkExpr ON None) OpWithin [RRange rg]).
  assert (M1 : moderate r1). { split; [exact Logic.I|]. constructor; [|constructor]. cbn [item_moderate]. change (2 ^ 49) with 562949953421312. lia. }
  pose proof (uts_wanted r1 d (or_introl eq_refl) (or_introl eq_refl) M1 P) as W1.
  unfold uts_relation in W1. subst r1. cbn [rel_op rel_expr rel_list ex_modulus reduced wanted existsb] in W1.
  rewrite Bool.orb_false_r in W1. unfold uts_expr in W1. cbn [ex_operand ex_modulus uts_operand] in W1. rewrite W1.
  unfold cov_of. rewrite E. cbn [rel_expr ex_operand]. split.
  - intros (it & [<- |[]] & C). exact C.
  - intro C. exists (RRange rg). split; [now left|exact C].
Qed.

Lemma within_right_sound r rg po d : a_within (rel_op r) -> on_value r -> moderate r -> first_range (rel_list r) = Some rg ->
  within_right r rg -> represents po d -> proper d -> code_relation po r = uts_relation r d.
Proof.
  intros A V Mo F [HI HF] R P. destruct (plain_n (rel_expr r)) eqn:PN.
  - destruct (rel_expr r) as [o m] eqn:E. unfold plain_n in PN. cbn [ex_operand ex_modulus] in PN, HF.
    destruct o; try discriminate. destruct m; [discriminate|].
    destruct A as [O|O].
    2:{ exfalso. apply (not_within_never r rg Mo F O); [now rewrite E|exact HI]. }
    apply (within_value_n r rg); auto. cbn [wanted]. split; [intro C; exists (RRange rg); split; [now apply first_range_in|exact C]|].
    intros (it & I & C).
    assert (K : forall y, covers it y -> covers (RRange rg) y).
    { intros y Y. specialize (HI y). rewrite E, O in HI. cbn [ex_modulus residue tested wanted] in HI. apply HI; [exact Logic.I|eauto]. }
    unfold cov_of in *. rewrite E in *. cbn [ex_operand] in *. destruct (uts_f d =? 0); [now apply K|].
    destruct it as [r'|v]; cbn [covers_up] in C; [|easy].
    assert (K1 := K (d_int d)). assert (K2 := K (d_int d + 1)). cbn [covers covers_up] in *. lia.
  - apply (within_value r rg); auto. cbv zeta. pose proof (reduced_residue r (d_int d) Mo) as RR.
    unfold cov_of. destruct V as [O|O]; rewrite O in *.
    + destruct (uts_f d =? 0); [now apply HI|].
      destruct (ex_modulus (rel_expr r)) as [m|] eqn:M; [now apply HF|].
      unfold plain_n in PN. rewrite O, M in PN. discriminate.
    + now apply HI.
Qed.

(** ** The others are wrong *)
Lemma int_represents x : x < 2 ^ 53 -> exists s po, numeral s (mkDecimal x []) /\ small (mkDecimal x []) /\
  operands_from_str s = Ok po /\ represents po (mkDecimal x []).
Proof.
  intro H. assert (S : small (mkDecimal x [])).
  { split; [|cbn; lia]. change (uts_num (mkDecimal x [])) with (x * 1 + 0). lia. }
  exists (dec_of_N x). destruct (numeral_represents _ _ (dec_of_N_numeral x) S) as (po & E & R).
  exists po. auto using dec_of_N_numeral.
Qed.
Lemma cov_of_int r x : cov_of r (mkDecimal x []) = covers.
Proof. unfold cov_of. change (uts_f (mkDecimal x []) =? 0) with true. now destruct (ex_operand (rel_expr r)). Qed.

Lemma within_int_complete r rg (OPS : N -> operands) : a_within (rel_op r) -> on_value r -> moderate r -> first_range (rel_list r) = Some rg ->
  (forall x, x < 2 ^ 53 -> represents (OPS x) (mkDecimal x []) /\ code_relation (OPS x) r = uts_relation r (mkDecimal x [])) ->
  within_right_int r rg.
Proof.
  intros A V Mo F H. destruct (moderate_range r rg Mo F) as [L U].
  assert (PR : forall x, proper (mkDecimal x [])) by constructor.
  assert (BIG : forall it x, In it (rel_list r) -> covers it x -> x < 2 ^ 49).
  { intros it x I C. pose proof (moderate_in _ _ Mo I) as B. destruct it as [r'|v]; cbn [covers item_moderate] in C, B; lia. }
  assert (LE : 2 ^ 49 < 2 ^ 53) by reflexivity.
  (* a [not within] without modulus is wrong at 2^49 *)
  assert (NW : rel_op r = OpNotWithin -> ex_modulus (rel_expr r) = None -> False).
  { intros O M. destruct (H (2 ^ 49) LE) as [R Q].
    assert (W : uts_relation r (mkDecimal (2 ^ 49) []) = true).
    { apply uts_wanted; auto. rewrite cov_of_int, O, M. cbn [wanted reduced d_int]. intros (it & I & C). specialize (BIG it _ I C). lia. }
    rewrite W in Q. destruct (plain_n (rel_expr r)) eqn:PN.
    - destruct (rel_expr r) as [o m] eqn:E. unfold plain_n in PN. cbn [ex_operand ex_modulus] in PN.
      destruct o; try discriminate. destruct m; [discriminate|].
      unfold code_relation in Q. rewrite O, F, E in Q. rewrite (code_plain_not_within rg _ _ ltac:(lia) R) in Q; [discriminate|].
      change (uts_den (mkDecimal (2 ^ 49) [])) with 1. change (uts_num (mkDecimal (2 ^ 49) [])) with (2 ^ 49 * 1 + 0). lia.
    - apply (code_tested r rg _ A F PN) in Q. rewrite (within_operand_value r _ _ V R), M, O in Q. cbn [tested reduced d_int] in Q. lia. }
  intros x X.
  destruct (N.lt_ge_cases x (2 ^ 49)) as [Lx|Gx].
  - assert (RX : reduced (ex_modulus (rel_expr r)) x = x).
    { destruct (ex_modulus (rel_expr r)); cbn [residue reduced] in *; [now apply N.mod_small|reflexivity]. }
    destruct (H x ltac:(lia)) as [R Q]. destruct (plain_n (rel_expr r)) eqn:PN.
    + destruct (rel_expr r) as [o m] eqn:E. unfold plain_n in PN. cbn [ex_operand ex_modulus] in PN.
      destruct o; try discriminate. destruct m; [discriminate|].
      destruct A as [O|O]; [|exfalso; now apply NW].
      apply (within_value_n r rg) in Q; auto. rewrite cov_of_int in Q. rewrite O. exact Q.
    + apply (within_value r rg) in Q; auto. cbv zeta in Q. rewrite cov_of_int in Q. cbn [d_int] in Q. now rewrite RX in Q.
  - assert (M : ex_modulus (rel_expr r) = None).
    { destruct Mo as [M _]. destruct (ex_modulus (rel_expr r)) as [m|]; [|reflexivity]. cbn [residue] in X. lia. }
    destruct A as [O|O]; [|exfalso; auto]. rewrite O. cbn [tested wanted]. split; [lia|].
    intros (it & I & C). specialize (BIG it x I C). lia.
Qed.

Lemma within_fits r rg : a_within (rel_op r) -> moderate r -> first_range (rel_list r) = Some rg -> code_relation_fits r = true.
Proof.
  intros A Mo F. destruct (moderate_range r rg Mo F) as [L U]. destruct Mo as [M _].
  change (2 ^ 49) with 562949953421312 in *.
  assert (MF : modulus_fits (rel_expr r) = true).
  { unfold modulus_fits. destruct (ex_modulus (rel_expr r)) as [m|]; [|reflexivity].
    change (2 ^ 64) with 18446744073709551616.
    apply andb_true_intro. split; [|apply N.ltb_lt; lia]. destruct (N.eqb_spec m 0); [lia|reflexivity]. }
  assert (LF : forall v, v < 562949953421312 -> literal_fits (rel_expr r) v = true).
  { intros v B. unfold literal_fits. apply Bool.orb_true_iff. right. change (2 ^ 64) with 18446744073709551616. apply N.ltb_lt. lia. }
  unfold code_relation_fits. rewrite F, MF, (LF _ L), (LF _ U). destruct A as [-> | ->]; reflexivity.
Qed.

Lemma C123_lemma r rg : a_within (rel_op r) -> on_value r -> first_range (rel_list r) = Some rg -> moderate r ->
  exists ts e, gen_pr [[r]] = Ok ts /\ read_bexpr ts = Some e /\
    ((forall s d po, numeral s d -> small d -> operands_from_str s = Ok po -> eval e po = Ok (uts_relation r d)) <-> within_right r rg) /\
    ((forall x, x < 2 ^ 53 -> eval e (operands_from_unsigned x) = Ok (uts_relation r (mkDecimal x []))) <-> within_right_int r rg).
Proof.
  intros A V F Mo.
  assert (NE : rel_list r <> []) by (intro Z; rewrite Z in F; discriminate).
  assert (NG : no_gaps [[r]]) by (split; [easy|]; repeat constructor; easy).
  assert (L : lacks_ranges [[r]] = false).
  { unfold lacks_ranges, lacks_range. cbn [existsb]. rewrite F. now destruct (rel_op r). }
  destruct (C91_lemma [[r]] NG L) as (ts & e & G & RE & _ & EV). exists ts, e. split; [assumption|]. split; [assumption|].
  assert (EQ : forall po, eval e po = Ok (code_relation po r)).
  { intro po. rewrite EV.
    - unfold code_condition. cbn [existsb forallb]. now rewrite Bool.andb_true_r, Bool.orb_false_r.
    - unfold code_fits. cbn [forallb]. now rewrite (within_fits r rg A Mo F). }
  assert (LE : 2 ^ 49 < 2 ^ 53 /\ 2 ^ 53 < 2 ^ 64) by (split; reflexivity).
  assert (RU : forall x, x < 2 ^ 53 -> represents (operands_from_unsigned x) (mkDecimal x [])) by (intros x X; apply unsigned_represents; lia).
  split; split.
  - intro H. split.
    + apply (within_int_complete r rg (fun x => match operands_from_str (dec_of_N x) with Ok po => po | _ => operands_from_unsigned x end)); auto.
      intros x X. destruct (int_represents x X) as (_ & _ & _ & Sm & _).
      destruct (numeral_represents _ _ (dec_of_N_numeral x) Sm) as (po & E & R). rewrite E. split; [exact R|].
      specialize (H _ _ _ (dec_of_N_numeral x) Sm E). rewrite EQ in H. congruence.
    + destruct (ex_operand (rel_expr r)) eqn:O; auto. destruct (ex_modulus (rel_expr r)) as [m|] eqn:M; auto.
      intros x X. assert (B : x < 2 ^ 49) by (destruct Mo as [Mo _]; rewrite M in Mo; lia).
      destruct (half_represents x B) as (s & po & Nm & Sm & E & R). specialize (H _ _ _ Nm Sm E). rewrite EQ in H.
      assert (Q : code_relation po r = uts_relation r (mkDecimal x [5])) by congruence.
      apply (within_value r rg) in Q; auto using half_proper; [|unfold plain_n; now rewrite O, M].
      cbv zeta in Q. rewrite M in Q. cbn [reduced d_int] in Q. rewrite (N.mod_small x m X) in Q.
      unfold cov_of in Q. rewrite O in Q. exact Q.
  - intros W s d po Nm Sm E. rewrite EQ. f_equal. apply (within_right_sound r rg); auto.
    + now apply (represents_str s).
    + now apply (numeral_proper s).
  - intro H. apply (within_int_complete r rg operands_from_unsigned); auto. intros x X. split; [auto|].
    specialize (H x X). rewrite EQ in H. congruence.
  - intros W x X. rewrite EQ. f_equal. specialize (RU x X).
    destruct (plain_n (rel_expr r)) eqn:PN.
    + apply (within_right_sound r rg); auto; [|constructor]. split; [exact W|].
      unfold plain_n in PN. destruct (ex_operand (rel_expr r)); auto. now destruct (ex_modulus (rel_expr r)).
    + apply (within_value r rg); auto; [constructor|]. cbv zeta. rewrite cov_of_int. apply W, reduced_residue, Mo.
Qed.

(** ** The criterion in particular cases *)
(** without modulus: the first range includes the rest of the list *)
Lemma within_plain_lemma r rg : first_range (rel_list r) = Some rg -> rel_op r = OpWithin -> ex_modulus (rel_expr r) = None ->
  (within_right r rg <-> forall it x, In it (rel_list r) -> covers it x -> covers (RRange rg) x).
Proof.
  intros F O M. unfold within_right, within_right_int. rewrite M, O. cbn [residue tested wanted covers]. split.
  - intros [H _] it x I C. apply H; [exact Logic.I|]. eauto.
  - intro H. split; [|now destruct (ex_operand (rel_expr r))]. intros x _. split.
    + intro C. exists (RRange rg). split; [now apply first_range_in|exact C].
    + intros (it & I & C). now apply (H it).
Qed.
(** one range after [n % m]: it is empty, out of reach, or reaches up to [m] *)
Lemma within_n_mod_lemma m rg : 0 < m ->
  (within_right (mkRel (mkExpr ON (Some m)) OpWithin [RRange rg]) rg <-> upper_val rg < lower_val rg \/ m <= lower_val rg \/ m <= upper_val rg).
Proof.
  intro M. unfold within_right, within_right_int. cbn [rel_expr rel_op rel_list ex_operand ex_modulus residue tested wanted].
  assert (ONE : forall (cov : range_list_item -> N -> Prop) x, (exists it, In it [RRange rg] /\ cov it x) <-> cov (RRange rg) x).
  { intros cov x. split; [intros (it & [<- |[]] & C); exact C|intro C; exists (RRange rg); split; [now left|exact C]]. }
  split.
  - intros [_ H]. destruct (N.lt_ge_cases (upper_val rg) (lower_val rg)) as [|G]; [now left|].
    destruct (N.le_gt_cases m (lower_val rg)) as [|G1]; [now right; left|].
    destruct (N.le_gt_cases m (upper_val rg)) as [|G2]; [now right; right|].
    specialize (H (upper_val rg) G2). rewrite ONE in H. cbn [covers_up] in H. lia.
  - intro H. split; intros x X; rewrite ONE; cbn [covers covers_up]; lia.
Qed.
(** one range after [not within], with a modulus: it has all remainders *)
Lemma not_within_mod_lemma o m rg : 0 < m ->
  (within_right_int (mkRel (mkExpr o (Some m)) OpNotWithin [RRange rg]) rg <-> lower_val rg = 0 /\ m <= upper_val rg + 1).
Proof.
  intro M. unfold within_right_int. cbn [rel_expr rel_op rel_list ex_modulus residue tested wanted].
  assert (ONE : forall x, (exists it, In it [RRange rg] /\ covers it x) <-> covers (RRange rg) x).
  { intros x. split; [intros (it & [<- |[]] & C); exact C|intro C; exists (RRange rg); split; [now left|exact C]]. }
  split.
  - intro H. assert (A : forall x, x < m -> tested OpNotWithin rg x <-> ~ covers (RRange rg) x) by (intros x X; rewrite <- ONE; now apply H).
    cbn [tested covers] in A. assert (A0 := A 0 M). assert (A1 := A (m - 1) ltac:(lia)). lia.
  - intros [L U] x X. rewrite ONE. cbn [covers]. lia.
Qed.

(** ** The other operands *)
(** the values an operand can have *)
Definition possible (o : operand) (y : N) : Prop :=
  match o with OT => y = 0 \/ y mod 10 <> 0 | _ => True end.
(** the code takes a modulus of [i], which has nothing to do with the operand *)
Definition within_right_other (r : relation) (rg : range) : Prop :=
  forall x y, possible (ex_operand (rel_expr r)) y ->
  (tested (rel_op r) rg (match ex_modulus (rel_expr r) with Some m => x mod m | None => y end) <->
   wanted covers (rel_op r) (rel_list r) (reduced (ex_modulus (rel_expr r)) y)).
Definition on_digits (r : relation) : Prop := ex_operand (rel_expr r) <> ON /\ ex_operand (rel_expr r) <> OI.

Definition digit_operand (o : operand) (d : decimal) : N :=
  match o with OV => uts_v d | OW => uts_w d | OF => uts_f d | OT => uts_t d | _ => d_int d end.
Lemma digit_possible s d po o : numeral s d -> operands_from_str s = Ok po -> o <> ON -> o <> OI ->
  possible o (digit_operand o d) /\ code_operand o po = digit_operand o d /\ uts_operand o d = (digit_operand o d, 1).
Proof.
  intros Nm E O1 O2. destruct (numeral_fields s d po Nm E) as (_ & _ & V & W & F & T).
  assert (B : op_t po = 0 \/ op_t po mod 10 <> 0).
  { destruct (C07_lemma s po E) as (_ & _ & _ & _ & _ & C6). destruct (N.eq_dec (op_t po) 0); [now left|right; auto]. }
  destruct o; try easy; cbn [possible digit_operand code_operand uts_operand]; repeat split; auto. now rewrite <- T.
Qed.
Lemma uts_wanted_digits r s d po : a_within (rel_op r) -> on_digits r -> numeral s d -> operands_from_str s = Ok po ->
  uts_relation r d = true <-> wanted covers (rel_op r) (rel_list r) (reduced (ex_modulus (rel_expr r)) (digit_operand (ex_operand (rel_expr r)) d)).
Proof.
  intros A [O1 O2] Nm E. destruct (digit_possible s d po _ Nm E O1 O2) as (_ & _ & U).
  rewrite uts_within by exact A. apply wanted_of; [exact A|]. intro it. unfold uts_expr. rewrite U.
  destruct (ex_modulus (rel_expr r)) as [m|]; cbn [reduced]; rewrite ?N.mul_1_r; apply item_within_int.
Qed.
Lemma plain_digits r : on_digits r -> plain_n (rel_expr r) = false.
Proof. intros [O _]. unfold plain_n. now destruct (ex_operand (rel_expr r)). Qed.

(** every value is met with every integer part *)
Lemma digit_numeral o x y : o <> ON -> o <> OI -> x < 2 ^ 53 -> y < 2 ^ 64 -> possible o y ->
  exists s d po, numeral s d /\ operands_from_str s = Ok po /\ op_i po = x /\ digit_operand o d = y.
Proof.
  intros O1 O2 X B P.
  assert (ZERO : y = 0 -> exists s d po, numeral s d /\ operands_from_str s = Ok po /\ op_i po = x /\ digit_operand o d = y).
  { intros ->. destruct (int_represents x X) as (s & po & Nm & _ & E & R). exists s, (mkDecimal x []), po.
    repeat split; auto; [exact (rp_i _ _ R)|]. now destruct o. }
  assert (PT : forall f, digits f -> f <> [] -> dval f < 2 ^ 64 -> digit_operand o (mkDecimal x (List.map dig f)) = y ->
    exists s d po, numeral s d /\ operands_from_str s = Ok po /\ op_i po = x /\ digit_operand o d = y).
  { intros f Df Nf Lf Q. destruct (dec_of_N_spec x) as (D & V & N & _).
    destruct (C01_lemma [] (dec_of_N x) f) as (n & g & _ & E); auto; [now left| |].
    { rewrite V. assert (2 ^ 53 < 2 ^ 64) by reflexivity. lia. }
    exists ([] ++ dec_of_N x ++ [46] ++ f), (mkDecimal x (List.map dig f)). eexists. split; [|split; [exact E|split; [exact V|exact Q]]].
    exists [], (dec_of_N x), f. repeat split; auto; [now left| |now rewrite V]. now destruct f. }
  destruct (N.eq_dec y 0) as [Z|Z]; [auto|].
  assert (SELF : forall f, digits f -> (forall g', f <> g' ++ [48]) -> strip_trailing (List.map dig f) = List.map dig f).
  { intros f D G. apply strip_map; [exact D|]. split; [|exact G]. exists 0%nat. cbn [repeat]. now rewrite app_nil_r. }
  destruct o; try easy; cbn [possible digit_operand] in P, PT.
  - (* v *) apply (PT (repeat 48 (N.to_nat y))); auto using digits_repeat0.
    + intro Q. apply (f_equal (@List.length N)) in Q. rewrite repeat_length in Q. cbn [List.length] in Q. lia.
    + now rewrite dval_repeat0.
    + unfold uts_v. cbn [d_frac]. rewrite map_length, repeat_length. lia.
  - (* w *) assert (D : digits (repeat 48 (N.to_nat (y - 1)) ++ [49])).
    { apply digits_app. split; [apply digits_repeat0|]. repeat constructor; unfold digit_char; easy. }
    apply (PT (repeat 48 (N.to_nat (y - 1)) ++ [49])); auto.
    + intro Q. apply (f_equal (@List.length N)) in Q. rewrite app_length in Q. cbn [List.length] in Q. lia.
    + rewrite dval_snoc, dval_repeat0. reflexivity.
    + unfold uts_w. cbn [d_frac]. rewrite SELF; [|exact D|].
      * rewrite map_length, app_length, repeat_length. cbn [List.length]. lia.
      * intros g' Q. apply app_inj_tail in Q as [_ Q]. discriminate.
  - (* f *) destruct (dec_of_N_spec y) as (D & V & N & _). apply (PT (dec_of_N y)); auto; [now rewrite V|].
    unfold uts_f. cbn [d_frac]. now rewrite frac_value_dig.
  - (* t *) destruct (dec_of_N_spec y) as (D & V & N & _). apply (PT (dec_of_N y)); auto; [now rewrite V|].
    unfold uts_t. cbn [d_frac]. rewrite SELF; [now rewrite frac_value_dig|exact D|].
    intros g' Q. destruct P as [P|P]; [easy|]. apply P. rewrite <- V, Q, dval_snoc. change (48 - 48) with 0.
    rewrite N.add_0_r, N.mul_comm. apply N.mod_mul. lia.
Qed.

Lemma C123_other_lemma r rg : a_within (rel_op r) -> on_digits r -> first_range (rel_list r) = Some rg -> moderate r ->
  exists ts e, gen_pr [[r]] = Ok ts /\ read_bexpr ts = Some e /\
    ((forall s d po, numeral s d -> operands_from_str s = Ok po -> eval e po = Ok (uts_relation r d)) <-> within_right_other r rg).
Proof.
  intros A OD F Mo.
  assert (NE : rel_list r <> []) by (intro Z; rewrite Z in F; discriminate).
  assert (NG : no_gaps [[r]]) by (split; [easy|]; repeat constructor; easy).
  assert (L : lacks_ranges [[r]] = false).
  { unfold lacks_ranges, lacks_range. cbn [existsb]. rewrite F. now destruct (rel_op r). }
  destruct (C91_lemma [[r]] NG L) as (ts & e & G & RE & _ & EV). exists ts, e. split; [assumption|]. split; [assumption|].
  assert (EQ : forall po, eval e po = Ok (code_relation po r)).
  { intro po. rewrite EV.
    - unfold code_condition. cbn [existsb forallb]. now rewrite Bool.andb_true_r, Bool.orb_false_r.
    - unfold code_fits. cbn [forallb]. now rewrite (within_fits r rg A Mo F). }
  assert (ONE : forall s d po, numeral s d -> operands_from_str s = Ok po -> (code_relation po r = uts_relation r d <->
    (tested (rel_op r) rg (match ex_modulus (rel_expr r) with Some m => op_i po mod m | None => digit_operand (ex_operand (rel_expr r)) d end) <->
     wanted covers (rel_op r) (rel_list r) (reduced (ex_modulus (rel_expr r)) (digit_operand (ex_operand (rel_expr r)) d))))).
  { intros s d po Nm E. apply bool_iff; [|now apply (uts_wanted_digits r s d po)].
    pose proof (code_tested r rg po A F (plain_digits r OD)) as C. unfold within_operand in C.
    destruct OD as [O1 O2]. destruct (digit_possible s d po _ Nm E O1 O2) as (_ & Q & _). now rewrite Q in C. }
  split.
  - intros H.
    assert (W0 : forall x y, y < 2 ^ 64 -> possible (ex_operand (rel_expr r)) y ->
      (tested (rel_op r) rg (match ex_modulus (rel_expr r) with Some m => x mod m | None => y end) <->
       wanted covers (rel_op r) (rel_list r) (reduced (ex_modulus (rel_expr r)) y))).
    { intros x y Y P. destruct OD as [O1 O2].
    set (x' := match ex_modulus (rel_expr r) with Some m => x mod m | None => 0 end).
    assert (X : x' < 2 ^ 53 /\ (match ex_modulus (rel_expr r) with Some m => x' mod m | None => y end) =
                               (match ex_modulus (rel_expr r) with Some m => x mod m | None => y end)).
    { subst x'. destruct Mo as [M _]. destruct (ex_modulus (rel_expr r)) as [m|]; [|now split].
      assert (2 ^ 49 < 2 ^ 53) by reflexivity. pose proof (N.mod_lt x m ltac:(lia)). split; [lia|]. apply N.mod_mod. lia. }
    destruct X as [X1 X2]. destruct (digit_numeral _ x' y O1 O2 X1 Y P) as (s & d & po & Nm & E & I & YD).
    specialize (H s d po Nm E). rewrite EQ in H. assert (Q : code_relation po r = uts_relation r d) by congruence.
    apply (ONE s d po Nm E) in Q. rewrite I, YD in Q. now rewrite X2 in Q. }
    intros x y P. destruct (ex_modulus (rel_expr r)) as [m|] eqn:M.
    + assert (M1 : 0 < m < 2 ^ 49) by (destruct Mo as [Mo _]; now rewrite M in Mo).
      assert (Y : y mod (10 * m) < 2 ^ 64).
      { pose proof (N.mod_lt y (10 * m) ltac:(lia)). change (2 ^ 49) with 562949953421312 in M1. change (2 ^ 64) with 18446744073709551616. lia. }
      assert (Y1 : (y mod (10 * m)) mod m = y mod m) by (apply mod_frac; lia).
      assert (Y2 : (y mod (10 * m)) mod 10 = y mod 10) by (rewrite (N.mul_comm 10 m); apply mod_frac; lia).
      specialize (W0 x (y mod (10 * m)) Y). cbn [reduced] in W0 |- *. rewrite Y1 in W0. apply W0.
      destruct (ex_operand (rel_expr r)); auto. cbn [possible] in *. rewrite Y2. destruct P as [-> |P]; [left; apply N.mod_0_l; lia|now right].
    + destruct (N.lt_ge_cases y (2 ^ 64)) as [Y|Y]; [now apply W0|].
      destruct (moderate_range r rg Mo F) as [L1 U1]. assert (LE : 2 ^ 49 + 1 < 2 ^ 64) by reflexivity.
      assert (BIG : forall z, 2 ^ 49 <= z -> ~ exists it, In it (rel_list r) /\ covers it z).
      { intros z Z (it & I & C). pose proof (moderate_in _ _ Mo I) as B. destruct it as [r'|v]; cbn [covers item_moderate] in C, B; lia. }
      assert (NB := BIG y ltac:(lia)). destruct A as [O|O]; rewrite O in *; cbn [tested wanted reduced] in *.
      * split; [lia|]. intro C. now elim NB.
      * exfalso. specialize (W0 0 (2 ^ 49 + 1) LE). assert (NB' := BIG (2 ^ 49 + 1) ltac:(lia)).
        assert (P' : possible (ex_operand (rel_expr r)) (2 ^ 49 + 1)) by (destruct (ex_operand (rel_expr r)); cbn [possible]; auto; right; discriminate).
        apply W0 in P' as [_ P']. apply P' in NB'. lia.
  - intros W s d po Nm E. rewrite EQ. f_equal. apply (ONE s d po Nm E). apply W.
    destruct OD as [O1 O2]. now destruct (digit_possible s d po _ Nm E O1 O2).
Qed.
(** one range after a modulus of [v], [w] or [f]: it has no remainder or all of them *)
Lemma within_other_mod_lemma o m rg : o = OV \/ o = OW \/ o = OF -> 0 < m ->
  (within_right_other (mkRel (mkExpr o (Some m)) OpWithin [RRange rg]) rg <->
   upper_val rg < lower_val rg \/ m <= lower_val rg \/ lower_val rg = 0 /\ m <= upper_val rg + 1).
Proof.
  intros O M. unfold within_right_other. cbn [rel_expr rel_op rel_list ex_operand ex_modulus reduced tested wanted].
  assert (ONE : forall x, (exists it, In it [RRange rg] /\ covers it x) <-> covers (RRange rg) x).
  { intros x. split; [intros (it & [<- |[]] & C); exact C|intro C; exists (RRange rg); split; [now left|exact C]]. }
  assert (PO : forall y, possible o y) by (intro y; destruct O as [-> |[-> | ->]]; exact Logic.I).
  split.
  - intro H. assert (A : forall x y, x < m -> y < m -> lower_val rg <= x <= upper_val rg <-> lower_val rg <= y <= upper_val rg).
    { intros x y Hx Hy. specialize (H x y (PO y)). rewrite ONE, !N.mod_small in H by assumption. exact H. }
    destruct (N.lt_ge_cases (upper_val rg) (lower_val rg)) as [|G]; [now left|]. destruct (N.le_gt_cases m (lower_val rg)) as [|G1]; [now right; left|].
    right; right. pose proof (A (lower_val rg) 0 G1 ltac:(lia)). pose proof (A (lower_val rg) (m - 1) G1 ltac:(lia)). lia.
  - intros H x y _. rewrite ONE. cbn [covers]. pose proof (N.mod_lt x m ltac:(lia)). pose proof (N.mod_lt y m ltac:(lia)). lia.
Qed.
(** without modulus, [not within] is wrong here too *)
Lemma not_within_other_never r rg : on_digits r -> moderate r -> first_range (rel_list r) = Some rg -> rel_op r = OpNotWithin ->
  ex_modulus (rel_expr r) = None -> ~ within_right_other r rg.
Proof.
  intros OD Mo F O M H. specialize (H 0 (2 ^ 49 + 1)). rewrite M, O in H. cbn [reduced tested wanted] in H.
  destruct (moderate_range r rg Mo F) as [L U].
  destruct H as [_ H]; [destruct (ex_operand (rel_expr r)); cbn [possible]; auto; right; discriminate|].
  destruct H as [H _]; [|lia]. intros (it & I & C). pose proof (moderate_in _ _ Mo I) as B.
  destruct it as [r'|v]; cbn [covers item_moderate] in C, B; lia.
Qed.
