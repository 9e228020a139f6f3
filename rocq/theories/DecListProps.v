(** * What the "@decimal" lists say (C116) *)
From Coq Require Import Lia ZifyBool ZifyN ZifyNat.
From Verif Require Import Base LangId GenRs Json CldrParser Ast Spec Cldr Operands PluralRules Tables ApiProps OperandsProps GenMeaning Represents
  RustExpr Conformance CodeSpec InputSpec CodeShipped ListSpec ListProps DecListSpec.
Open Scope N_scope.

(** ** Conditions on the numbers with fraction [f] *)
Lemma den_pos d : 0 < uts_den d.
Proof. unfold uts_den. pose proof (N.pow_nonzero 10 (uts_v d) ltac:(lia)). lia. Qed.
Lemma item_large it a b : 0 < b -> (item_max it + 1) * b <= a -> item_in (a, b) it = false /\ item_within (a, b) it = false.
Proof.
  intros B A. destruct it as [[lo up]|k]; cbn [item_max upper_val lower_val item_in item_within] in *.
  - assert (U : (a <=? up * b) = false) by nia. rewrite U, !Bool.andb_false_r. auto.
  - assert (U : (a =? k * b) = false) by nia. auto.
Qed.
Definition frac_op (o : operand) (f : list N) (x : N) : N :=
  match o with ON => x * uts_den (mkDecimal 0 f) + uts_f (mkDecimal 0 f) | OI => x | _ => fst (uts_operand o (mkDecimal 0 f)) end.
Definition frac_den (o : operand) (f : list N) : N := match o with ON => uts_den (mkDecimal 0 f) | _ => 1 end.
Lemma operand_frac o f x : uts_operand o (mkDecimal x f) = (frac_op o f x, frac_den o f).
Proof. destruct o; reflexivity. Qed.
Lemma frac_den_pos o f : 0 < frac_den o f.
Proof. destruct o; cbn [frac_den]; try lia. apply den_pos. Qed.
Definition same_at (p : decimal -> bool) (f : list N) (x y : N) : Prop := p (mkDecimal x f) = p (mkDecimal y f).
Lemma relation_same_f r f x y M : rel_bound r <= x -> rel_bound r <= y -> (rel_period r | M) -> M <> 0 -> x mod M = y mod M ->
  same_at (uts_relation r) f x y.
Proof.
  intros X Y D M0 E. unfold same_at.
  assert (K : uts_expr (rel_expr r) (mkDecimal x f) = uts_expr (rel_expr r) (mkDecimal y f) \/
    (let o := ex_operand (rel_expr r) in
     uts_expr (rel_expr r) (mkDecimal x f) = (frac_op o f x, frac_den o f) /\ uts_expr (rel_expr r) (mkDecimal y f) = (frac_op o f y, frac_den o f) /\
     x * frac_den o f <= frac_op o f x /\ y * frac_den o f <= frac_op o f y /\
     rel_bound r = fold_right (fun it a => N.max (item_max it + 1) a) 0 (rel_list r))).
  { cbv zeta. unfold uts_expr, rel_period, rel_bound in *. rewrite !operand_frac.
    assert (Z : forall a, a mod 0 = a) by now intros [].
    destruct (ex_modulus (rel_expr r)) as [[|m]|].
    - rewrite N.mul_0_l, !Z. destruct (ex_operand (rel_expr r)); auto; right; cbn [frac_op frac_den]; repeat split; lia.
    - left. f_equal. destruct (ex_operand (rel_expr r)); try reflexivity; cbn [frac_op frac_den].
      + set (b := uts_den (mkDecimal 0 f)). assert (B : 0 < b) by apply den_pos. set (u := uts_f _).
        pose proof (mod_same x y (N.pos m) M D M0 E) as Q.
        rewrite (N.add_mod (x * b)), (N.add_mod (y * b)) by nia. rewrite !N.mul_mod_distr_r by lia. now rewrite Q.
      + rewrite !N.mul_1_r. now apply (mod_same x y (N.pos m) M).
    - destruct (ex_operand (rel_expr r)); auto; right; cbn [frac_op frac_den]; repeat split; lia. }
  unfold uts_relation. destruct K as [->|K]; [reflexivity|]. cbv zeta in K. destruct K as (-> & -> & A & B & Q).
  set (b := frac_den _ f) in *. assert (Bp : 0 < b) by apply frac_den_pos.
  assert (L : forall z a, rel_bound r <= z -> z * b <= a -> forall it, In it (rel_list r) -> item_in (a, b) it = false /\ item_within (a, b) it = false).
  { intros z a Hz Ha it I. apply item_large; [exact Bp|]. apply bound_item in I. nia. }
  assert (P : forall z a, rel_bound r <= z -> z * b <= a ->
    existsb (item_in (a, b)) (rel_list r) = false /\ existsb (item_within (a, b)) (rel_list r) = false).
  { intros z a Hz Ha. split; apply Bool.not_true_iff_false; intros H; apply existsb_exists in H as (it & I & H);
      destruct (L z a Hz Ha it I); congruence. }
  destruct (P x _ X A) as [-> ->]. destruct (P y _ Y B) as [-> ->]. reflexivity.
Qed.
Lemma condition_same_f c f x y M : cond_bound c <= x -> cond_bound c <= y -> (cond_period c | M) -> M <> 0 -> x mod M = y mod M ->
  same_at (uts_condition c) f x y.
Proof.
  intros X Y D M0 E. unfold same_at. induction c as [|a c IH]; [reflexivity|]. cbn [uts_condition existsb].
  change (existsb (fun a => uts_and a ?d) c) with (uts_condition c d).
  cbn [cond_bound cond_period fold_right] in X, Y, D. fold (cond_bound c) in X, Y. fold (cond_period c) in D.
  assert (A : uts_and a (mkDecimal x f) = uts_and a (mkDecimal y f) /\ cond_bound c <= x /\ cond_bound c <= y /\ (cond_period c | M)).
  { clear IH. induction a as [|r a IH]; [auto|]. cbn [fold_right] in X, Y, D.
    destruct IH as (A & B1 & B2 & B3); [lia|lia|eapply N.divide_trans; [apply N.divide_lcm_r|exact D]|].
    split; [|auto]. cbn [uts_and forallb]. change (forallb (fun r => uts_relation r ?d) a) with (uts_and a d). rewrite A. f_equal.
    apply (relation_same_f r f x y M); auto; [lia|lia|eapply N.divide_trans; [apply N.divide_lcm_l|exact D]]. }
  destruct A as (-> & B1 & B2 & B3). f_equal. now apply IH.
Qed.
Definition has_f (rs : list (category * condition)) (c : category) (f : list N) (x : N) : bool := cldr_selectb rs (mkDecimal x f) c.
Lemma has_same_f rs c f x y M : rules_bound rs <= x -> rules_bound rs <= y -> (rules_period rs | M) -> M <> 0 -> x mod M = y mod M ->
  has_f rs c f x = has_f rs c f y.
Proof.
  intros X Y D M0 E.
  assert (A : forall c k, In (c, k) rs -> uts_condition k (mkDecimal x f) = uts_condition k (mkDecimal y f)).
  { intros c' k I. apply rule_in in I as [B D']. apply (condition_same_f k f x y M); auto; [lia|lia|eapply N.divide_trans; eassumption]. }
  clear X Y D. unfold has_f, cldr_selectb. destruct (cat_eqb c OTHER).
  - induction rs as [|[c' k] rs IH]; [reflexivity|]. cbn [forallb]. rewrite (A c' k) by now left. f_equal. apply IH. intros c2 k2 I. apply (A c2). now right.
  - induction rs as [|[c' k] rs IH]; [reflexivity|]. cbn [existsb]. rewrite (A c' k) by now left. f_equal. apply IH. intros c2 k2 I. apply (A c2). now right.
Qed.

(** ** "v = 0" and "v != 0" *)
Definition v_zero (r : relation) : bool :=
  match rel_op r, ex_modulus (rel_expr r), ex_operand (rel_expr r), rel_list r with
  | OpEQ, None, OV, [RValue 0] => true
  | _, _, _, _ => false
  end.
Definition v_nonzero (r : relation) : bool :=
  match rel_op r, ex_modulus (rel_expr r), ex_operand (rel_expr r), rel_list r with
  | OpNotEQ, None, OV, [RValue 0] => true
  | _, _, _, _ => false
  end.
Ltac forms r := let a := fresh "a" in destruct r as [[o m] a l]; cbn [rel_op rel_expr rel_list ex_modulus ex_operand];
  destruct a; try discriminate; destruct m as [?|]; try discriminate; destruct o; try discriminate;
  destruct l as [|[?|[|?]] [|? ?]]; try discriminate.
Lemma v_zero_uts r x f : f <> [] -> v_zero r = true -> uts_relation r (mkDecimal x f) = false.
Proof. unfold v_zero, uts_relation. forms r. intros F _. destruct f as [|? f]; [easy|]. unfold uts_expr. cbn. lia. Qed.
Lemma v_zero_code r po : op_v po <> 0 -> v_zero r = true -> code_relation po r = false.
Proof. unfold v_zero, code_relation. forms r. intros F _. cbn. lia. Qed.
Lemma v_nonzero_uts r x f : f <> [] -> v_nonzero r = true -> uts_relation r (mkDecimal x f) = true.
Proof. unfold v_nonzero, uts_relation. forms r. intros F _. destruct f as [|? f]; [easy|]. unfold uts_expr. cbn. lia. Qed.
Lemma v_nonzero_code r po : op_v po <> 0 -> v_nonzero r = true -> code_relation po r = true.
Proof. unfold v_nonzero, code_relation. forms r. intros F _. cbn. lia. Qed.

(** no number with fraction digits has the category *)
Definition no_decimals (rs : list (category * condition)) (c : category) : bool :=
  if cat_eqb c OTHER then existsb (fun '(c', k) => negb (cat_eqb c' OTHER) && existsb (forallb v_nonzero) k) rs
  else forallb (fun '(c', k) => negb (cat_eqb c' c) || forallb (existsb v_zero) k) rs.
Lemma cond_v_zero k x f : f <> [] -> forallb (existsb v_zero) k = true -> uts_condition k (mkDecimal x f) = false.
Proof.
  intros F H. apply Bool.not_true_iff_false. intros U. unfold uts_condition in U. apply existsb_exists in U as (a & I & U).
  rewrite forallb_forall in H. specialize (H a I). apply existsb_exists in H as (r & J & V). unfold uts_and in U. rewrite forallb_forall in U.
  apply U in J. rewrite (v_zero_uts r x f F V) in J. discriminate.
Qed.
Lemma cond_v_nonzero k x f : f <> [] -> existsb (forallb v_nonzero) k = true -> uts_condition k (mkDecimal x f) = true.
Proof.
  intros F H. apply existsb_exists in H as (a & I & H). unfold uts_condition. apply existsb_exists. exists a. split; [exact I|].
  unfold uts_and. apply forallb_forall. intros r J. rewrite forallb_forall in H. apply v_nonzero_uts; auto.
Qed.
Lemma no_decimals_uts rs c x f : f <> [] -> no_decimals rs c = true -> has_f rs c f x = false.
Proof.
  intros F. unfold no_decimals, has_f, cldr_selectb. destruct (cat_eqb c OTHER).
  - intros H. apply existsb_exists in H as ((c' & k) & I & H). apply andb_prop in H as [H1 H2]. apply Bool.not_true_iff_false.
    rewrite forallb_forall. intros A. specialize (A _ I). cbn in A. rewrite (cond_v_nonzero k x f F H2) in A. destruct (cat_eqb c' OTHER); discriminate.
  - intros H. rewrite forallb_forall in H. apply Bool.not_true_iff_false. intros A. apply existsb_exists in A as ((c' & k) & I & A).
    specialize (H _ I). cbn in H. apply andb_prop in A as [A1 A2]. rewrite A1 in H. cbn in H. rewrite (cond_v_zero k x f F H) in A2. discriminate.
Qed.
Lemma no_decimals_code rs c po : op_v po <> 0 -> no_decimals rs c = true -> code_select rs po <> c.
Proof.
  intros V H E. unfold code_select in E. destruct (List.find _ rs) as [[c' k]|] eqn:F.
  - subst c'. apply find_some in F as [I F]. cbn [fst snd] in F.
    assert (NO : cat_eqb c OTHER = false) by (destruct c; try reflexivity; discriminate F).
    assert (C : code_condition k po = true) by (destruct c; try exact F; discriminate). clear F.
    unfold no_decimals in H. rewrite NO in H. rewrite forallb_forall in H. specialize (H _ I). cbn beta iota in H.
    rewrite (proj2 (cat_eqb_eq c c) eq_refl) in H. cbn [negb orb] in H.
    unfold code_condition in C. apply existsb_exists in C as (a & J & C). rewrite forallb_forall in H. specialize (H a J).
    apply existsb_exists in H as (r & K & H). rewrite forallb_forall in C. specialize (C r K). rewrite (v_zero_code r po V H) in C. discriminate.
  - subst c. unfold no_decimals in H. cbn [cat_eqb] in H. change (cat_eqb OTHER OTHER) with true in H. cbn iota in H.
    apply existsb_exists in H as ((c' & k) & I & H). apply andb_prop in H as [H1 H2].
    pose proof (List.find_none _ _ F _ I) as Z. cbn [fst snd] in Z.
    assert (C : code_condition k po = false) by (destruct c'; try exact Z; discriminate H1).
    apply existsb_exists in H2 as (a & J & H2). apply Bool.not_true_iff_false in C. apply C. unfold code_condition. apply existsb_exists.
    exists a. split; [exact J|]. apply forallb_forall. intros r K. rewrite forallb_forall in H2. apply v_nonzero_code; auto.
Qed.

(** ** Categories whose integer parts are bounded *)
Lemma bounding_false_f r f x : bounding r = true -> rel_bound r <= x -> uts_relation r (mkDecimal x f) = false.
Proof.
  unfold bounding, uts_relation. unfold uts_expr. rewrite operand_frac. intros B X.
  assert (Z : ex_modulus (rel_expr r) = None -> (ex_operand (rel_expr r) = ON \/ ex_operand (rel_expr r) = OI) ->
    existsb (item_in (frac_op (ex_operand (rel_expr r)) f x, frac_den (ex_operand (rel_expr r)) f)) (rel_list r) = false).
  { intros E O. unfold rel_bound in X. rewrite E in X. apply Bool.not_true_iff_false. intros H.
    apply existsb_exists in H as (it & I & H). apply bound_item in I.
    destruct (item_large it (frac_op (ex_operand (rel_expr r)) f x) (frac_den (ex_operand (rel_expr r)) f) (frac_den_pos _ _)) as [Q _]; [|congruence].
    pose proof (den_pos (mkDecimal 0 f)). destruct O as [-> | ->]; cbn [frac_op frac_den]; nia. }
  destruct (rel_op r); try discriminate; destruct (ex_modulus (rel_expr r)); try discriminate; destruct (ex_operand (rel_expr r)); try discriminate; apply Z; auto.
Qed.
Definition bounding_or_v (r : relation) : bool := bounding r || v_zero r.
Definition bounded (rs : list (category * condition)) (c : category) : bool :=
  negb (cat_eqb c OTHER) && forallb (fun '(c', k) => negb (cat_eqb c' c) || forallb (existsb bounding_or_v) k) rs.
Lemma cond_bounded k x f : f <> [] -> forallb (existsb bounding_or_v) k = true -> cond_bound k <= x -> uts_condition k (mkDecimal x f) = false.
Proof.
  intros F. induction k as [|a k IH]; intros B X; [reflexivity|]. cbn [forallb] in B. apply andb_prop in B as [B1 B2].
  apply existsb_exists in B1 as (r & I & B1). cbn [cond_bound fold_right] in X. fold (cond_bound k) in X.
  destruct (and_bound_le a r (cond_bound k) I) as [L1 L2]. cbn [uts_condition existsb].
  change (existsb (fun a => uts_and a ?d) k) with (uts_condition k d). rewrite IH by (auto; lia).
  rewrite Bool.orb_false_r. apply Bool.not_true_iff_false. intros H. unfold uts_and in H. rewrite forallb_forall in H. specialize (H r I).
  apply orb_prop in B1 as [B1|B1]; [rewrite bounding_false_f in H|rewrite v_zero_uts in H]; try discriminate; auto. lia.
Qed.
Lemma bounded_f rs c f x : f <> [] -> bounded rs c = true -> rules_bound rs <= x -> has_f rs c f x = false.
Proof.
  intros F B X. unfold bounded in B. apply andb_prop in B as [O B]. apply Bool.negb_true_iff in O. rewrite forallb_forall in B.
  unfold has_f, cldr_selectb. rewrite O. apply Bool.not_true_iff_false. intros H. apply existsb_exists in H as ((c' & k) & I & H).
  apply andb_prop in H as [H1 H2]. specialize (B _ I). cbn in B. rewrite H1 in B. cbn in B.
  rewrite (cond_bounded k x f F B) in H2; [discriminate|]. apply rule_in in I as [I _]. lia.
Qed.

(** ** Checking one rule *)
Definition fractions : list (list N) := [[0]; [1]; [5]; [3]; [4]; [2]].
Lemma fractions_ok f : In f fractions -> fraction f.
Proof. unfold fractions, fraction. cbn. intros [<-|[<-|[<-|[<-|[<-|[<-|[]]]]]]]; (split; [discriminate|]); repeat constructor. Qed.
(** integer parts to try *)
Definition tries (rs : list (category * condition)) (r : rule) : list N :=
  match decimal_list r with Some l => map (fun s => dv_integer (sr_lower s)) (sl_ranges l) | None => [] end ++
  map (fun k => rules_bound rs + N.of_nat k) (seq 0 40).
Definition found (rs : list (category * condition)) (c : category) (r : rule) (p : N -> bool) : bool :=
  existsb (fun x => p x && existsb (fun f => has_f rs c f x) fractions) (tries rs r).
Definition dec_rule_ok (rs : list (category * condition)) (c : category) (r : rule) : bool :=
  if has_decimals r then
    negb (rules_period rs =? 0) && found rs c r (fun _ => true) &&
    if more_decimals r then found rs c r (fun x => rules_bound rs <=? x) else bounded rs c
  else no_decimals rs c.
Lemma found_true rs c r p : found rs c r p = true -> exists x f, p x = true /\ fraction f /\ has_f rs c f x = true.
Proof.
  unfold found. intros H. apply existsb_exists in H as (x & _ & H). apply andb_prop in H as [H1 H2].
  apply existsb_exists in H2 as (f & I & H2). exists x, f. auto using fractions_ok.
Qed.
Lemma dec_ok_has rs c r : dec_rule_ok rs c r = true ->
  (has_decimals r = true <-> exists x f, fraction f /\ has_f rs c f x = true).
Proof.
  unfold dec_rule_ok. destruct (has_decimals r); intros H.
  - split; [|reflexivity]. intros _. apply andb_prop in H as [H _]. apply andb_prop in H as [_ H].
    destruct (found_true _ _ _ _ H) as (x & f & _ & F & S). eauto.
  - split; [discriminate|]. intros (x & f & [F _] & S). rewrite (no_decimals_uts rs c x f F H) in S. discriminate.
Qed.
Lemma dec_ok_more rs c r : dec_rule_ok rs c r = true ->
  (more_decimals r = true <-> forall k, exists x f, k <= x /\ fraction f /\ has_f rs c f x = true).
Proof.
  unfold dec_rule_ok. intros H. destruct (has_decimals r) eqn:D.
  - apply andb_prop in H as [H M]. apply andb_prop in H as [P _]. apply Bool.negb_true_iff, N.eqb_neq in P.
    destruct (more_decimals r).
    + split; [|reflexivity]. intros _ k. apply found_true in M as (x & f & B & F & S). apply N.leb_le in B.
      exists (x + k * rules_period rs), f. split; [nia|]. split; [exact F|]. rewrite <- S.
      apply (has_same_f rs c f _ x (rules_period rs)); auto; [lia|apply N.divide_refl|now apply N.mod_add].
    + split; [discriminate|]. intros K. destruct (K (rules_bound rs)) as (x & f & X & [F _] & S). rewrite (bounded_f rs c f x F M X) in S. discriminate.
  - assert (M : more_decimals r = false) by (unfold more_decimals, has_decimals in *; destruct (decimal_list r); [discriminate|reflexivity]).
    rewrite M. split; [discriminate|]. intros K. destruct (K 0) as (x & f & _ & [F _] & S). rewrite (no_decimals_uts rs c x f F H) in S. discriminate.
Qed.

(** ** Checking the data *)
Definition dec_text_ok (t : pr_type) (rules : list (category * condition)) (p : bytes * bytes) : bool :=
  match named_category (fst p) with
  | Some c => match parse_plural_rule (list_text c (snd p)) with
              | Ok r => match t with CARDINAL => dec_rule_ok rules c r | ORDINAL => negb (has_decimals r) end
              | _ => false
              end
  | None => false
  end.
Definition dec_locale_ok t (e : bytes * bmap bytes) : bool :=
  match langid_from_str (fst e) with
  | Some id => match find_rules t id with Some rules => forallb (dec_text_ok t rules) (snd e) | None => false end
  | None => true
  end.
Definition dec_lists_ok t : bool :=
  match rule_map_of t (cldr_json t) with Some m => forallb (dec_locale_ok t) m | None => false end.
Lemma dec_lists_ok_true t : dec_lists_ok t = true.
Proof. destruct t; vm_compute; reflexivity. Qed.
Lemma data_rule_dec t id rules c r : data_rule t id rules c r ->
  match t with CARDINAL => dec_rule_ok rules c r | ORDINAL => negb (has_decimals r) end = true.
Proof.
  intros (m & key & rs & name & text & M & I & L & J & Nm & P & K). pose proof (dec_lists_ok_true t) as H. unfold dec_lists_ok in H.
  rewrite M in H. rewrite forallb_forall in H. specialize (H _ I). unfold dec_locale_ok in H. cbn [fst snd] in H. rewrite L in H.
  destruct (find_rules t id) as [rules'|] eqn:F; [|discriminate]. apply find_rules_in in F.
  assert (rules' = rules) as -> by exact (cldr_unique t id rules' rules F K).
  rewrite forallb_forall in H. specialize (H _ J). unfold dec_text_ok in H. cbn [fst snd] in H. rewrite Nm, P in H. exact H.
Qed.
Lemma C116_has_lemma id rules c r : data_rule CARDINAL id rules c r ->
  (has_decimals r = true <-> exists x f, fraction f /\ cldr_select rules (mkDecimal x f) c).
Proof.
  intros D. rewrite (dec_ok_has rules c r (data_rule_dec CARDINAL id rules c r D)). unfold has_f.
  split; intros (x & f & F & S); exists x, f; (split; [exact F|]); now apply cldr_selectb_iff.
Qed.
Lemma C116_more_lemma id rules c r : data_rule CARDINAL id rules c r ->
  (more_decimals r = true <-> forall k, exists x f, k <= x /\ fraction f /\ cldr_select rules (mkDecimal x f) c).
Proof.
  intros D. rewrite (dec_ok_more rules c r (data_rule_dec CARDINAL id rules c r D)). unfold has_f.
  split; intros H k; destruct (H k) as (x & f & X & F & S); exists x, f; (split; [exact X|]); (split; [exact F|]); now apply cldr_selectb_iff.
Qed.
Lemma C116_ordinal_lemma id rules c r : data_rule ORDINAL id rules c r -> has_decimals r = false.
Proof. intros D. apply data_rule_dec in D. now apply Bool.negb_true_iff. Qed.
Lemma C116_never_lemma how w id pr rules c r x po : create how id CARDINAL = Ok pr -> data_rule CARDINAL id rules c r -> has_decimals r = false ->
  converted w x = Ok po -> op_v po <> 0 -> select w pr x <> Ok c.
Proof.
  intros C D H O V S. destruct (C93_lemma how id CARDINAL pr C) as (rs & I & U & E). rewrite (E w x po O) in S. injection S as S.
  assert (rules = rs) as ->.
  { destruct D as (m & key & rs0 & name & text & _ & _ & _ & _ & _ & _ & J). now apply U. }
  apply (data_rule_dec CARDINAL) in D. unfold dec_rule_ok in D. rewrite H in D. exact (no_decimals_code rs c po V D S).
Qed.

(** ** Every category with a list is given to some numeral with a decimal point *)
Definition numerals : list bytes :=
  flat_map (fun i => map (fun f => bs i ++ [46] ++ bs f) ["0"; "1"; "5"; "3"; "4"; "2"]%string) ["0"; "1"; "2"; "3"; "5"; "6"; "7"; "11"; "20"; "21"; "100"; "1000000"; "16"; "9"]%string.
Definition dec_used_text (b : body) (p : bytes * bytes) : bool :=
  match named_category (fst p) with
  | Some c => match parse_plural_rule (list_text c (snd p)) with
              | Ok r => if has_decimals r then
                  existsb (fun s => match operands_from_str s with
                                    | Ok po => match eval_body b po with Ok c' => cat_eqb c' c | _ => false end | _ => false end) numerals else true
              | _ => false
              end
  | None => false
  end.
Definition dec_used_locale (t : pr_type) (e : bytes * bmap bytes) : bool :=
  match langid_from_str (fst e) with
  | Some id => match List.find (fun p => langid_eqb id (fst p)) (prs t) with
      | Some (_, b) => forallb (dec_used_text b) (snd e) | None => true end
  | None => true
  end.
Definition dec_used (t : pr_type) : bool :=
  match rule_map_of t (cldr_json t) with Some m => forallb (dec_used_locale t) m | None => false end.
Lemma dec_used_true t : dec_used t = true.
Proof. destruct t; vm_compute; reflexivity. Qed.
Lemma numerals_point s : In s numerals -> In 46 s.
Proof.
  assert (A : forallb (existsb (N.eqb 46)) numerals = true) by (vm_compute; reflexivity). rewrite forallb_forall in A.
  intros I. specialize (A s I). apply existsb_exists in A as (x & J & E). apply N.eqb_eq in E. now subst.
Qed.
Lemma selects_such w pr s c : match operands_from_str s with
    | Ok po => match eval_body (pr_function pr) po with Ok c' => cat_eqb c' c | _ => false end | _ => false end = true ->
  select w pr (InStr s) = Ok c.
Proof.
  unfold select. cbn [to_operands]. destruct (operands_from_str s) as [po| |]; try discriminate.
  destruct (eval_body (pr_function pr) po) as [c'| |]; try discriminate. intros A. apply cat_eqb_eq in A. now subst.
Qed.
Lemma select_converts w pr s c : select w pr (InStr s) = Ok c -> exists po, operands_from_str s = Ok po.
Proof. unfold select. cbn [to_operands]. destruct (operands_from_str s) as [po| |]; [eauto|discriminate|discriminate]. Qed.
Lemma locale_used t key rs : (exists m, rule_map_of t (cldr_json t) = Some m /\ In (key, rs) m) -> dec_used_locale t (key, rs) = true.
Proof.
  intros (m & M & I). pose proof (dec_used_true t) as A. unfold dec_used in A. rewrite M in A. rewrite forallb_forall in A. exact (A _ I).
Qed.
Lemma text_used t id b key rs name text : dec_used_locale t (key, rs) = true -> langid_from_str key = Some id -> In (id, b) (prs t) ->
  (forall b', In (id, b') (prs t) -> b' = b) -> In (name, text) rs -> dec_used_text b (name, text) = true.
Proof.
  unfold dec_used_locale. change (fst (key, rs)) with key. change (snd (key, rs)) with rs. intros A L B U J. rewrite L in A.
  destruct (List.find _ (prs t)) as [[id' b']|] eqn:F.
  - apply find_some in F as [F1 F2]. change (fst (id', b')) with id' in F2. apply langid_eqb_eq in F2. subst id'. apply U in F1. subst b'.
    rewrite forallb_forall in A. exact (A _ J).
  - exfalso. apply (List.find_none _ _ F) in B. change (fst (id, b)) with id in B.
    assert (Z : langid_eqb id id = true) by now apply langid_eqb_eq. congruence.
Qed.
Lemma numeral_used b c r name text : dec_used_text b (name, text) = true -> named_category name = Some c ->
  parse_plural_rule (list_text c text) = Ok r -> has_decimals r = true ->
  exists s, In 46 s /\ forall w pr, pr_function pr = b -> select w pr (InStr s) = Ok c.
Proof.
  unfold dec_used_text. cbn [fst snd]. intros A Nm P H. rewrite Nm, P, H in A. apply existsb_exists in A as (s & Q & A).
  exists s. split; [now apply numerals_point|]. intros w pr <-. now apply selects_such.
Qed.
Lemma C116_used_lemma how w id pr rules c r : create how id CARDINAL = Ok pr -> data_rule CARDINAL id rules c r ->
  (has_decimals r = true <-> exists s, In 46 s /\ select w pr (InStr s) = Ok c).
Proof.
  intros C D. split.
  - intros H. destruct D as (m & key & rs & name & text & M & I & L & J & Nm & P & K). apply C22_lemma in C as [B U].
    pose proof (locale_used CARDINAL key rs (ex_intro _ m (conj M I))) as A.
    pose proof (text_used CARDINAL id (pr_function pr) key rs name text A L B U J) as A2.
    destruct (numeral_used (pr_function pr) c r name text A2 Nm P H) as (s & Q & S). exists s. split; [exact Q|]. now apply S.
  - intros (s & P & S). destruct (has_decimals r) eqn:H; [reflexivity|]. exfalso.
    destruct (select_converts w pr s c S) as [po O].
    apply (C116_never_lemma how w id pr rules c r (InStr s) po C D H O); [|exact S].
    destruct (accepted_cases s po O) as [[N _]|(pre & i & f & g & _ & _ & _ & _ & _ & F & _ & _ & _ & ->)]; [easy|].
    cbn. destruct f; [easy|cbn; lia].
Qed.
