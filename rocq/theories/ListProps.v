(** * Which sample lists are complete (C115) *)
From Coq Require Import Lia ZifyBool ZifyN ZifyNat.
From Verif Require Import Base LangId GenRs Json CldrParser Ast Spec Cldr PluralRules Tables ApiProps GenMeaning Represents
  Conformance ConformanceProps Exclusive ListSpec.
Open Scope N_scope.

(** ** Conditions on integers *)
Definition whole (x : N) : decimal := mkDecimal x [].
Lemma whole_num x : uts_num (whole x) = x.
Proof. unfold uts_num, uts_den, uts_v, uts_f, whole. cbn. lia. Qed.
Definition item_max (it : range_list_item) : N := match it with RValue k => k | RRange r => upper_val r end.
(** from here on a relation without modulus does not change *)
Definition rel_bound (r : relation) : N :=
  match ex_modulus (rel_expr r) with
  | Some (N.pos _) => 0
  | _ => fold_right (fun it a => N.max (item_max it + 1) a) 0 (rel_list r)
  end.
Definition rel_period (r : relation) : N := match ex_modulus (rel_expr r) with Some 0 | None => 1 | Some m => m end.
Definition cond_bound (c : condition) : N := fold_right (fun a b => fold_right (fun r => N.max (rel_bound r)) b a) 0 c.
Definition cond_period (c : condition) : N := fold_right (fun a b => fold_right (fun r => N.lcm (rel_period r)) b a) 1 c.

Definition op_int (o : operand) (x : N) : N := match o with ON | OI => x | _ => 0 end.
Definition expr_int (e : expression) (x : N) : N :=
  match ex_modulus e with None => op_int (ex_operand e) x | Some m => op_int (ex_operand e) x mod m end.
Lemma expr_whole e x : uts_expr e (whole x) = (expr_int e x, 1).
Proof.
  assert (O : uts_operand (ex_operand e) (whole x) = (op_int (ex_operand e) x, 1)).
  { destruct (ex_operand e); cbn [uts_operand op_int]; try reflexivity. now rewrite whole_num. }
  unfold uts_expr, expr_int. rewrite O. destruct (ex_modulus e); [now rewrite N.mul_1_r|reflexivity].
Qed.
Lemma items_same (f : N * N -> range_list_item -> bool) l x y :
  (forall it, In it l -> f (x, 1) it = f (y, 1) it) -> existsb (f (x, 1)) l = existsb (f (y, 1)) l.
Proof. induction l as [|it l IH]; intros H; [reflexivity|]. cbn. rewrite H by now left. f_equal. apply IH. intros i I. apply H. now right. Qed.
Lemma bound_item l it : In it l -> item_max it + 1 <= fold_right (fun it a => N.max (item_max it + 1) a) 0 l.
Proof. induction l as [|x l IH]; intros I; [easy|]. cbn [fold_right]. destruct I as [->|I]; [lia|specialize (IH I); lia]. Qed.
Lemma item_big it x y : item_max it + 1 <= x -> item_max it + 1 <= y -> item_in (x, 1) it = item_in (y, 1) it /\ item_within (x, 1) it = item_within (y, 1) it.
Proof.
  intros X Y. destruct it as [[lo up]|k]; cbn [item_max upper_val lower_val item_in item_within] in *; rewrite ?N.mul_1_r, ?N.mod_1_r.
  - assert (A : (x <=? up) = false) by lia. assert (B : (y <=? up) = false) by lia. rewrite A, B, !Bool.andb_false_r. auto.
  - assert (A : (x =? k) = false) by lia. assert (B : (y =? k) = false) by lia. rewrite A, B. auto.
Qed.
Lemma mod_same x y m M : (m | M) -> M <> 0 -> x mod M = y mod M -> x mod m = y mod m.
Proof.
  intros [k ->] Z E. assert (m <> 0 /\ k <> 0) as [Z1 Z2] by (split; intros ->; apply Z; lia).
  rewrite (N.mul_comm k m) in E. pose proof (N.mod_mul_r x m k Z1 Z2) as A. pose proof (N.mod_mul_r y m k Z1 Z2) as B.
  rewrite E, B in A. assert (L1 := N.mod_lt x m Z1). assert (L2 := N.mod_lt y m Z1).
  apply (f_equal (fun a => a mod m)) in A. rewrite !(N.mul_comm m), !N.mod_add, !N.mod_mod in A by exact Z1. now symmetry.
Qed.
Lemma relation_same r x y M : rel_bound r <= x -> rel_bound r <= y -> (rel_period r | M) -> M <> 0 -> x mod M = y mod M ->
  uts_relation r (whole x) = uts_relation r (whole y).
Proof.
  intros X Y D M0 E.
  assert (K : expr_int (rel_expr r) x = expr_int (rel_expr r) y \/
    (expr_int (rel_expr r) x = x /\ expr_int (rel_expr r) y = y /\ rel_bound r = fold_right (fun it a => N.max (item_max it + 1) a) 0 (rel_list r))).
  { unfold expr_int, rel_period, rel_bound in *. destruct (ex_modulus (rel_expr r)) as [[|m]|].
    - assert (Z : forall a, a mod 0 = a) by now intros []. rewrite !Z. destruct (ex_operand (rel_expr r)); auto.
    - left. destruct (ex_operand (rel_expr r)); try reflexivity; cbn [op_int]; now apply (mod_same x y (N.pos m) M).
    - destruct (ex_operand (rel_expr r)); auto. }
  unfold uts_relation. rewrite !expr_whole. destruct K as [->|(-> & -> & Q)]; [reflexivity|].
  assert (B : forall it, In it (rel_list r) -> item_max it + 1 <= x /\ item_max it + 1 <= y).
  { intros it I. apply bound_item in I. lia. }
  clear Q.
  assert (P : existsb (item_in (x, 1)) (rel_list r) = existsb (item_in (y, 1)) (rel_list r)).
  { apply items_same. intros it I. apply B in I. now apply item_big. }
  assert (Q : existsb (item_within (x, 1)) (rel_list r) = existsb (item_within (y, 1)) (rel_list r)).
  { apply items_same. intros it I. apply B in I. now apply item_big. }
  now rewrite P, Q.
Qed.
Lemma lcm_0 a b : a <> 0 -> b <> 0 -> N.lcm a b <> 0.
Proof. intros A B H. apply N.lcm_eq_0 in H. tauto. Qed.
Lemma condition_same c x y M : cond_bound c <= x -> cond_bound c <= y -> (cond_period c | M) -> M <> 0 -> x mod M = y mod M ->
  uts_condition c (whole x) = uts_condition c (whole y).
Proof.
  intros X Y D M0 E. induction c as [|a c IH]; [reflexivity|]. cbn [uts_condition existsb].
  change (existsb (fun a => uts_and a ?d) c) with (uts_condition c d).
  cbn [cond_bound cond_period fold_right] in X, Y, D. fold (cond_bound c) in X, Y. fold (cond_period c) in D.
  assert (A : uts_and a (whole x) = uts_and a (whole y) /\ cond_bound c <= x /\ cond_bound c <= y /\ (cond_period c | M)).
  { clear IH. induction a as [|r a IH]; [auto|]. cbn [fold_right] in X, Y, D.
    destruct IH as (A & B1 & B2 & B3); [lia|lia|eapply N.divide_trans; [apply N.divide_lcm_r|exact D]|].
    split; [|auto]. cbn [uts_and forallb]. change (forallb (fun r => uts_relation r ?d) a) with (uts_and a d). rewrite A. f_equal.
    apply (relation_same r x y M); auto; [lia|lia|eapply N.divide_trans; [apply N.divide_lcm_l|exact D]]. }
  destruct A as (-> & B1 & B2 & B3). f_equal. now apply IH.
Qed.

(** ** The rules of a locale *)
Definition rules_bound (rs : list (category * condition)) : N := fold_right (fun p => N.max (cond_bound (snd p))) 0 rs.
Definition rules_period (rs : list (category * condition)) : N := fold_right (fun p => N.lcm (cond_period (snd p))) 1 rs.
Lemma rule_in rs c k : In (c, k) rs -> cond_bound k <= rules_bound rs /\ (cond_period k | rules_period rs).
Proof.
  induction rs as [|p rs IH]; intros I; [easy|]. cbn [rules_bound rules_period fold_right].
  fold (rules_bound rs) (rules_period rs). destruct I as [->|I]; cbn [snd].
  - split; [lia|apply N.divide_lcm_l].
  - destruct (IH I) as [B D]. split; [lia|eapply N.divide_trans; [exact D|apply N.divide_lcm_r]].
Qed.
Definition has (rs : list (category * condition)) (c : category) (x : N) : bool := cldr_selectb rs (whole x) c.
Lemma has_same rs c x y M : rules_bound rs <= x -> rules_bound rs <= y -> (rules_period rs | M) -> M <> 0 -> x mod M = y mod M ->
  has rs c x = has rs c y.
Proof.
  intros X Y D M0 E.
  assert (A : forall c k, In (c, k) rs -> uts_condition k (whole x) = uts_condition k (whole y)).
  { intros c' k I. apply rule_in in I as [B D']. apply (condition_same k x y M); auto; [lia|lia|eapply N.divide_trans; eassumption]. }
  clear X Y D. unfold has, cldr_selectb. destruct (cat_eqb c OTHER).
  - induction rs as [|[c' k] rs IH]; [reflexivity|]. cbn [forallb]. rewrite (A c' k) by now left. f_equal. apply IH. intros c2 k2 I. apply (A c2). now right.
  - induction rs as [|[c' k] rs IH]; [reflexivity|]. cbn [existsb]. rewrite (A c' k) by now left. f_equal. apply IH. intros c2 k2 I. apply (A c2). now right.
Qed.
(** one number beyond the bound stands for infinitely many *)
Lemma has_more_of rs c x : rules_period rs <> 0 -> rules_bound rs <= x -> has rs c x = true ->
  forall k, exists y, k <= y /\ has rs c y = true.
Proof.
  intros P B H k. exists (x + k * rules_period rs). split; [nia|]. rewrite <- H.
  apply (has_same rs c _ x (rules_period rs)); auto; [lia|apply N.divide_refl|now apply N.mod_add].
Qed.

(** conditions that no large integer meets: every alternative has a positive
    relation without modulus *)
Definition bounding (r : relation) : bool :=
  match rel_op r, ex_modulus (rel_expr r), ex_operand (rel_expr r) with
  | (OpIn | OpIs | OpEQ), None, (ON | OI) => true
  | _, _, _ => false
  end.
Lemma bounding_false r x : bounding r = true -> rel_bound r <= x -> uts_relation r (whole x) = false.
Proof.
  unfold bounding, uts_relation. rewrite expr_whole. unfold expr_int. intros B X.
  assert (Z : ex_modulus (rel_expr r) = None -> existsb (item_in (x, 1)) (rel_list r) = false).
  { intros E. unfold rel_bound in X. rewrite E in X.
    apply Bool.not_true_iff_false. intros H. apply existsb_exists in H as (it & I & H). apply bound_item in I.
    destruct it as [[lo up]|k]; cbn [item_max item_in upper_val lower_val] in *; rewrite ?N.mul_1_r in H; lia. }
  destruct (rel_op r); try discriminate; destruct (ex_modulus (rel_expr r)); try discriminate; destruct (ex_operand (rel_expr r)); try discriminate; now apply Z.
Qed.
Lemma and_bound_le a r b : In r a -> rel_bound r <= fold_right (fun r => N.max (rel_bound r)) b a /\ b <= fold_right (fun r => N.max (rel_bound r)) b a.
Proof. induction a as [|x a IH]; intros I; [easy|]. cbn [fold_right]. destruct I as [->|I].
  - split; [lia|]. clear IH. induction a as [|y a IH]; cbn [fold_right]; lia.
  - destruct (IH I). lia.
Qed.
Lemma bounded_false c x : forallb (existsb bounding) c = true -> cond_bound c <= x -> uts_condition c (whole x) = false.
Proof.
  induction c as [|a c IH]; intros B X; [reflexivity|]. cbn [forallb] in B. apply andb_prop in B as [B1 B2].
  apply existsb_exists in B1 as (r & I & B1). cbn [cond_bound fold_right] in X. fold (cond_bound c) in X.
  destruct (and_bound_le a r (cond_bound c) I) as [L1 L2]. cbn [uts_condition existsb]. change (existsb (fun a => uts_and a ?d) c) with (uts_condition c d). rewrite IH by (auto; lia).
  rewrite Bool.orb_false_r. apply Bool.not_true_iff_false. intros H. unfold uts_and in H. rewrite forallb_forall in H. specialize (H r I).
  rewrite bounding_false in H; [discriminate|exact B1|lia].
Qed.

(** ** Checking one rule of the data *)
Definition in_rangeb (x : N) (s : sample_range) : bool :=
  (dv_integer (sr_lower s) <=? x) && (x <=? dv_integer (match sr_upper s with Some u => u | None => sr_lower s end)).
Definition on_listb (r : rule) (x : N) : bool := existsb (in_rangeb x) (sl_ranges (integer_list r)).
Lemma on_listb_iff r x : on_listb r x = true <-> on_list r x.
Proof.
  unfold on_listb, on_list. rewrite existsb_exists, Exists_exists. split; intros (s & I & H); exists s; split; auto.
  - unfold in_rangeb in H. unfold in_range. cbv zeta. lia.
  - unfold in_rangeb. unfold in_range in H. cbv zeta in H. lia.
Qed.
Fixpoint below (p : N -> bool) (n : nat) (x : N) : bool := match n with O => true | S k => p x && below p k (x + 1) end.
Lemma below_ok p n : forall x, below p n x = true -> forall y, x <= y < x + N.of_nat n -> p y = true.
Proof.
  induction n as [|n IH]; intros x H y L; [lia|]. cbn in H. apply andb_prop in H as [H1 H2].
  destruct (N.eq_dec x y) as [->|]; [exact H1|]. apply (IH (x + 1) H2). lia.
Qed.
(** the listed numbers all have the category *)
Definition listed_ok (rs : list (category * condition)) (c : category) (r : rule) : bool :=
  forallb (fun s => let lo := dv_integer (sr_lower s) in
    below (has rs c) (N.to_nat (dv_integer (match sr_upper s with Some u => u | None => sr_lower s end) + 1 - lo)) lo) (sl_ranges (integer_list r)).
Lemma listed_ok_true rs c r x : listed_ok rs c r = true -> on_list r x -> has rs c x = true.
Proof.
  unfold listed_ok, on_list. rewrite forallb_forall, Exists_exists. intros H (s & I & L). specialize (H s I). cbv zeta in H.
  unfold in_range in L. cbv zeta in L. apply (below_ok _ _ _ H). lia.
Qed.
Definition tzm_one (t : pr_type) (id : langid) (c : category) (x : N) : bool :=
  match t, c with CARDINAL, ONE => langid_eqb id (lang "tzm") && (25 <=? x) && (x <=? 99) | _, _ => false end.
(** beyond [B] nothing has the category *)
Definition finite_ok (rs : list (category * condition)) (c : category) : option N :=
  let B := rules_bound rs in
  if rules_period rs <=? 2000 then
    if below (fun x => negb (has rs c x)) (N.to_nat (rules_period rs)) B then Some B else None
  else if negb (cat_eqb c OTHER) && forallb (fun '(c', k) => negb (cat_eqb c' c) || forallb (existsb bounding) k) rs then Some B else None.
Lemma finite_ok_true rs c B : rules_period rs <> 0 -> finite_ok rs c = Some B -> forall x, B <= x -> has rs c x = false.
Proof.
  unfold finite_ok. cbv zeta. intros P0 H x X. destruct (rules_period rs <=? 2000).
  - destruct (below _ _ _) eqn:W; [|discriminate]. injection H as <-.
    set (M := rules_period rs) in *. set (B := rules_bound rs) in *.
    rewrite (has_same rs c x (B + (x - B) mod M) M); auto.
    + apply Bool.negb_true_iff. apply (below_ok _ _ _ W (B + (x - B) mod M)). pose proof (N.mod_lt (x - B) M P0). lia.
    + fold B. lia.
    + apply N.divide_refl.
    + pose proof (N.div_mod (x - B) M P0) as E. replace x with (B + (x - B) mod M + ((x - B) / M) * M) at 1 by lia. now apply N.mod_add.
  - match type of H with (if ?b then _ else _) = _ => destruct b eqn:W end; [|discriminate]. injection H as <-. apply andb_prop in W as [O W]. apply Bool.negb_true_iff in O. rewrite forallb_forall in W.
    unfold has, cldr_selectb. rewrite O. apply Bool.not_true_iff_false. intros H. apply existsb_exists in H as ((c' & k) & I & H).
    apply andb_prop in H as [H1 H2]. specialize (W _ I). cbn in W. rewrite H1 in W. cbn in W.
    rewrite (bounded_false k x W) in H2; [discriminate|]. apply rule_in in I as [I _]. lia.
Qed.
Definition rule_ok (t : pr_type) (id : langid) (rs : list (category * condition)) (c : category) (r : rule) : bool :=
  negb (rules_period rs =? 0) && listed_ok rs c r &&
  if has_more r then existsb (fun s => let x := dv_integer (sr_lower s) in (rules_bound rs <=? x) && has rs c x) (sl_ranges (integer_list r))
  else match finite_ok rs c with
       | Some B =>
           (B <=? 2000) && forallb (fun s => dv_integer (match sr_upper s with Some u => u | None => sr_lower s end) <? B) (sl_ranges (integer_list r)) &&
           below (fun x => Bool.eqb (has rs c x) (on_listb r x || tzm_one t id c x) && negb (on_listb r x && tzm_one t id c x)) (N.to_nat B) 0 &&
           (negb (tzm_one t id c 25) || (99 <? B))
       | None => false
       end.

Lemma rule_ok_more t id rs c r : rule_ok t id rs c r = true ->
  (has_more r = true <-> forall k, exists x, k <= x /\ has rs c x = true).
Proof.
  unfold rule_ok. intros H. apply andb_prop in H as [H H3]. apply andb_prop in H as [H1 H2].
  apply Bool.negb_true_iff, N.eqb_neq in H1. destruct (has_more r).
  - split; [intros _|reflexivity]. apply existsb_exists in H3 as (s & I & H3). cbv zeta in H3. apply andb_prop in H3 as [A B].
    apply N.leb_le in A. now apply (has_more_of rs c (dv_integer (sr_lower s))).
  - split; [discriminate|]. intros K. destruct (finite_ok rs c) as [B|] eqn:F; [|discriminate].
    destruct (K B) as (x & X & Hx). rewrite (finite_ok_true rs c B H1 F x X) in Hx. discriminate.
Qed.
Lemma rule_ok_complete t id rs c r : rule_ok t id rs c r = true -> has_more r = false ->
  forall x, (has rs c x = true <-> on_list r x \/ tzm_one t id c x = true) /\ ~ (on_list r x /\ tzm_one t id c x = true).
Proof.
  unfold rule_ok. intros H M x. rewrite M in H. apply andb_prop in H as [H H3]. apply andb_prop in H as [H1 H2].
  apply Bool.negb_true_iff, N.eqb_neq in H1. destruct (finite_ok rs c) as [B|] eqn:F; [|discriminate].
  apply andb_prop in H3 as [H3 T]. apply andb_prop in H3 as [H3 W]. apply andb_prop in H3 as [_ L].
  rewrite <- on_listb_iff. destruct (N.lt_ge_cases x B) as [X|X].
  - pose proof (below_ok _ _ _ W x ltac:(lia)) as E. apply andb_prop in E as [E1 E2]. apply Bool.eqb_prop in E1. rewrite E1.
    destruct (on_listb r x), (tzm_one t id c x); cbn in *; intuition discriminate.
  - rewrite (finite_ok_true rs c B H1 F x X).
    assert (A : on_listb r x = false).
    { apply Bool.not_true_iff_false. intros K. apply on_listb_iff in K. apply Exists_exists in K as (s & I & K).
      rewrite forallb_forall in L. specialize (L s I). unfold in_range in K. cbv zeta in K. lia. }
    assert (Z : tzm_one t id c x = false).
    { destruct (tzm_one t id c x) eqn:Z; [|reflexivity]. exfalso. apply Bool.orb_true_iff in T. unfold tzm_one in Z, T.
      destruct t; [|discriminate]. destruct c; try discriminate. destruct (langid_eqb id (lang "tzm")); [|discriminate]. cbn [andb] in Z, T.
      destruct T as [T|T]; [discriminate|lia]. }
    rewrite A, Z. intuition discriminate.
Qed.
(** ** Checking the data *)
Definition text_rule_ok t id rules (p : bytes * bytes) : bool :=
  match named_category (fst p) with
  | Some c => match parse_plural_rule (list_text c (snd p)) with Ok r => rule_ok t id rules c r | _ => false end
  | None => false
  end.
Definition locale_ok t (e : bytes * bmap bytes) : bool :=
  match langid_from_str (fst e) with
  | Some id => match find_rules t id with Some rules => forallb (text_rule_ok t id rules) (snd e) | None => false end
  | None => true
  end.
Definition lists_ok t : bool :=
  match rule_map_of t (cldr_json t) with Some m => forallb (locale_ok t) m | None => false end.
Lemma lists_ok_true t : lists_ok t = true.
Proof. destruct t; vm_compute; reflexivity. Qed.

(** ** C115 *)
Definition data_rule (t : pr_type) (id : langid) (rules : list (category * condition)) (c : category) (r : rule) : Prop :=
  exists m key rs name text, rule_map_of t (cldr_json t) = Some m /\ In (key, rs) m /\ langid_from_str key = Some id /\
    In (name, text) rs /\ named_category name = Some c /\ parse_plural_rule (list_text c text) = Ok r /\ In (id, rules) (cldr t).
Lemma data_rule_ok t id rules c r : data_rule t id rules c r -> rule_ok t id rules c r = true.
Proof.
  intros (m & key & rs & name & text & M & I & L & J & Nm & P & K). pose proof (lists_ok_true t) as H. unfold lists_ok in H.
  rewrite M in H. rewrite forallb_forall in H. specialize (H _ I). unfold locale_ok in H. cbn [fst snd] in H. rewrite L in H.
  destruct (find_rules t id) as [rules'|] eqn:F; [|discriminate]. apply find_rules_in in F.
  assert (rules' = rules) as -> by exact (cldr_unique t id rules' rules F K).
  rewrite forallb_forall in H. specialize (H _ J). unfold text_rule_ok in H. cbn [fst snd] in H. rewrite Nm, P in H. exact H.
Qed.
Lemma C115_more_lemma t id rules c r : data_rule t id rules c r ->
  (has_more r = true <-> forall k, exists x, k <= x /\ cldr_select rules (mkDecimal x []) c).
Proof.
  intros D. rewrite (rule_ok_more t id rules c r (data_rule_ok _ _ _ _ _ D)). unfold has, whole.
  split; intros H k; destruct (H k) as (x & X & S); exists x; (split; [exact X|]); now apply cldr_selectb_iff.
Qed.
Lemma C115_listed_lemma t id rules c r x : data_rule t id rules c r -> on_list r x -> cldr_select rules (mkDecimal x []) c.
Proof.
  intros D O. apply data_rule_ok in D. unfold rule_ok in D. apply andb_prop in D as [D _]. apply andb_prop in D as [_ D].
  apply cldr_selectb_iff. exact (listed_ok_true rules c r x D O).
Qed.
Lemma C115_complete_lemma t id rules c r x : data_rule t id rules c r -> has_more r = false ->
  ((on_list r x <-> cldr_select rules (mkDecimal x []) c) <-> ~ (t = CARDINAL /\ id = lang "tzm" /\ c = ONE /\ 25 <= x <= 99)).
Proof.
  intros D M. apply data_rule_ok in D. destruct (rule_ok_complete t id rules c r D M x) as [A B].
  unfold has in A. fold (whole x). rewrite <- cldr_selectb_iff, A.
  assert (T : tzm_one t id c x = true <-> t = CARDINAL /\ id = lang "tzm" /\ c = ONE /\ 25 <= x <= 99).
  { unfold tzm_one. split.
    - destruct t; [|discriminate]. destruct c; try discriminate. intros H. apply andb_prop in H as [H H3]. apply andb_prop in H as [H1 H2].
      apply langid_eqb_eq in H1. split; [reflexivity|]. split; [exact H1|]. split; [reflexivity|lia].
    - intros (-> & -> & -> & L). assert (E : langid_eqb (lang "tzm") (lang "tzm") = true) by now apply langid_eqb_eq.
      rewrite E. cbn [andb]. lia. }
  rewrite <- T. tauto.
Qed.
Lemma C115_select_lemma how w id t pr rules c r x : create how id t = Ok pr -> ~ In id (integer_wrong t) -> x < 2 ^ 64 ->
  data_rule t id rules c r -> has_more r = false -> ~ (t = CARDINAL /\ id = lang "tzm" /\ c = ONE) ->
  (select w pr (InUnsigned x) = Ok c <-> on_list r x).
Proof.
  intros C NI X D M Z.
  assert (K : on_list r x <-> cldr_select rules (mkDecimal x []) c) by (apply (C115_complete_lemma t id rules c r x D M); tauto).
  rewrite K. destruct (follows_unsigned how id t pr w x C X NI) as (rules' & c' & I & S & O). rewrite S.
  destruct D as (m & key & rs & name & text & _ & _ & _ & _ & _ & _ & J).
  assert (rules' = rules) as -> by exact (cldr_unique t id rules' rules I J). split.
  - intros H. injection H as ->. exact O.
  - intros H. f_equal. apply (C33_unique t id rules (mkDecimal x []) c' c I); auto. constructor.
Qed.

(** finding a rule of the data, for the concrete cases *)
Definition find_rule (t : pr_type) (key name : string) (c : category) : option (langid * list (category * condition) * rule) :=
  match rule_map_of t (cldr_json t) with
  | Some m =>
      match List.find (fun e => bytes_eqb (fst e) (bs key)) m with
      | Some (k, rs) =>
          match List.find (fun p => bytes_eqb (fst p) (bs name)) rs, langid_from_str k with
          | Some (n, text), Some id =>
              match find_rules t id, named_category n, parse_plural_rule (list_text c text) with
              | Some rules, Some c', Ok r => if cat_eqb c' c then Some (id, rules, r) else None
              | _, _, _ => None
              end
          | _, _ => None
          end
      | None => None
      end
  | None => None
  end.
Lemma find_rule_ok t key name c id rules r : find_rule t key name c = Some (id, rules, r) -> data_rule t id rules c r.
Proof.
  unfold find_rule. destruct (rule_map_of t (cldr_json t)) as [m|] eqn:M; [|discriminate].
  destruct (List.find _ m) as [[k rs]|] eqn:F; [|discriminate]. apply find_some in F as [I _].
  destruct (List.find _ rs) as [[n text]|] eqn:G; [|discriminate]. apply find_some in G as [J _].
  destruct (langid_from_str k) as [id'|] eqn:L; [|discriminate]. destruct (find_rules t id') as [rules'|] eqn:R; [|discriminate].
  destruct (named_category n) as [c'|] eqn:N; [|discriminate]. destruct (parse_plural_rule (list_text c text)) as [r'| |] eqn:P; try discriminate.
  destruct (cat_eqb c' c) eqn:E; [|discriminate]. intros H. injection H as <- <- <-. apply cat_eqb_eq in E. subst c'.
  apply find_rules_in in R. exists m, k, rs, n, text. auto 10.
Qed.
Definition rule_such (t : pr_type) (key name : string) (c : category) (p : list (category * condition) -> rule -> bool) : bool :=
  match find_rule t key name c with Some (id, rules, r) => langid_eqb id (lang key) && p rules r | None => false end.
Lemma rule_such_ok t key name c p : rule_such t key name c p = true ->
  exists rules r, data_rule t (lang key) rules c r /\ p rules r = true.
Proof.
  unfold rule_such. destruct (find_rule t key name c) as [[[id rules] r]|] eqn:F; [|discriminate]. intros H.
  apply andb_prop in H as [H1 H2]. apply langid_eqb_eq in H1. subst id. exists rules, r. split; [now apply (find_rule_ok t key name)|exact H2].
Qed.
