(** * Lemmas behind C120 *)
From Coq Require Import Lia ZifyBool ZifyN ZifyNat Floats.SpecFloat.
From Verif Require Import Base F64 LangId GenRs Ast Spec Cldr Operands PluralRules Tables ApiProps OperandsProps RustExpr
  GenMeaning Represents Conformance CodeSpec InputSpec CodeShipped ListProps RepeatSpec RepeatProps Order ViewSpec ViewProps PartSpec.
Open Scope N_scope.

(** ** Both meanings on the integer part, the number of fraction digits and the
    fraction digits *)
Definition triple := (N * N * N)%type.
Definition triple_of (d : decimal) : triple := (uts_i d, uts_v d, uts_f d).
Definition t_operand (o : operand) (s : triple) : N :=
  let '(i, v, f) := s in match o with ON | OI => i | OV | OW => v | OF | OT => f end.
Definition t_whole (o : operand) (s : triple) : bool := match o with ON => snd s =? 0 | _ => true end.
Definition t_uts (s : triple) (r : relation) : bool :=
  let e := rel_expr r in
  let x := reduced (ex_modulus e) (t_operand (ex_operand e) s) in
  let z := t_whole (ex_operand e) s in
  match rel_op r with
  | OpIn | OpIs | OpEQ => existsb (form_in x z) (rel_list r)
  | _ => negb (existsb (form_in x z) (rel_list r))
  end.
Definition t_value (e : expression) (k : N) (s : triple) : bool :=
  if plain_n e then (fst (fst s) =? k) && (snd s =? 0) else reduced (ex_modulus e) (t_operand (ex_operand e) s) =? k.
Definition t_range (e : expression) (r : range) (s : triple) : bool :=
  between (lower_val r) (if on_n e then fst (fst s) else reduced (ex_modulus e) (t_operand (ex_operand e) s)) (upper_val r).
Definition t_no_fraction (e : expression) (s : triple) : bool := if plain_n e then snd s =? 0 else true.
Definition t_code (s : triple) (r : relation) : bool :=
  let e := rel_expr r in
  match rel_op r with
  | OpIn | OpIs | OpEQ =>
      existsb (fun it => match it with RValue k => t_value e k s | RRange q => t_range e q s && t_no_fraction e s end) (rel_list r)
  | _ => forallb (fun it => match it with RValue k => negb (t_value e k s) | RRange q => negb (t_range e q s) && t_no_fraction e s end) (rel_list r)
  end.

Lemma divide_nonzero m P : (m | P) -> P <> 0 -> m <> 0.
Proof. intros D N E. subst m. apply N.divide_0_l in D. easy. Qed.
Lemma viewed_mod B P V F Q r : relation_viewed B P V F Q r -> P <> 0 -> Q <> 0 -> ex_modulus (rel_expr r) <> Some 0.
Proof.
  intros (_ & _ & R) P0 Q0 M. unfold relation_repeats in R. rewrite M in R. destruct (ex_operand (rel_expr r)); try easy.
  - now apply (divide_nonzero 0 P (proj1 R)).
  - now apply (divide_nonzero 0 P (proj1 R)).
  - now apply (divide_nonzero 0 Q R).
Qed.
Lemma t_zero d : (uts_t d =? 0) = (uts_f d =? 0).
Proof. unfold uts_t, uts_f. pose proof (frac_zero_strip (d_frac d)). lia. Qed.
Lemma t_uts_ok B P V F Q r d : relation_viewed B P V F Q r -> P <> 0 -> Q <> 0 -> proper d -> uts_relation r d = t_uts (triple_of d) r.
Proof.
  intros R P0 Q0 Pd. pose proof (viewed_mod _ _ _ _ _ r R P0 Q0) as M0. destruct R as (W & NW & R).
  assert (E : forall it, In it (rel_list r) -> item_in (uts_expr (rel_expr r) d) it =
    form_in (reduced (ex_modulus (rel_expr r)) (t_operand (ex_operand (rel_expr r)) (triple_of d))) (t_whole (ex_operand (rel_expr r)) (triple_of d)) it).
  { intros it I. rewrite relation_form by assumption. destruct r as [[o m] op l]. cbn [rel_expr rel_list rel_op ex_operand ex_modulus] in *.
    unfold triple_of. destruct o; cbn [part whole t_operand t_whole fst snd]; try reflexivity.
    - destruct m; easy.
    - destruct m; [easy|]. rewrite Forall_forall in R. rewrite (R it I). cbn [form_in reduced]. now rewrite t_zero. }
  unfold uts_relation, t_uts. apply existsb_same in E. rewrite E. destruct (rel_op r); congruence.
Qed.
Lemma t_code_ok B P V F Q r d po : relation_viewed B P V F Q r -> P <> 0 -> Q <> 0 -> B <= 2 ^ 53 -> proper d -> represents po d ->
  code_relation po r = t_code (triple_of d) r.
Proof.
  intros (W & NW & R) P0 Q0 L Pd Rp. destruct r as [[o m] op l]. cbn [rel_expr rel_list rel_op ex_operand ex_modulus] in *.
  unfold code_relation, t_code. cbn [rel_expr rel_list rel_op].
  assert (G : forall k, k < B -> SFeqb (op_n po) (f64_of_N k) = (uts_i d =? k) && (uts_f d =? 0)).
  { intros k K. rewrite (rp_eq _ _ Rp) by lia. exact (item_form (uts_i d) (uts_f d) (uts_den d) (RValue k) (frac_value_lt _ Pd)). }
  assert (NF : no_fraction (mkExpr o m) po = t_no_fraction (mkExpr o m) (triple_of d)) by (unfold no_fraction, t_no_fraction; now rewrite (rp_f _ _ Rp)).
  assert (IT : forall it, In it l -> match it with
    | RValue k => code_value (mkExpr o m) k po = t_value (mkExpr o m) k (triple_of d)
    | RRange q => code_range (mkExpr o m) q po = t_range (mkExpr o m) q (triple_of d) end).
  { intros it I. unfold relation_repeats in R. cbn [rel_expr rel_list ex_operand ex_modulus] in R.
    destruct it as [q|k]; unfold code_value, code_range, t_value, t_range, plain_n, on_n, code_operand, triple_of; cbn [ex_operand ex_modulus t_operand fst snd];
    rewrite ?(rp_i _ _ Rp), ?(rp_v _ _ Rp), ?(rp_f _ _ Rp), ?(rp_t _ _ Rp); destruct o, m as [m|]; try reflexivity; try easy.
    - rewrite Forall_forall in R. specialize (R _ I). discriminate R.
    - rewrite Forall_forall in R. specialize (R _ I). cbn in R. now apply G.
    - rewrite Forall_forall in R. specialize (R _ I). injection R as ->. cbn [reduced]. apply t_zero. }
  assert (E1 : existsb (code_item (mkExpr o m) po) l =
    existsb (fun it => match it with RValue k => t_value (mkExpr o m) k (triple_of d) | RRange q => t_range (mkExpr o m) q (triple_of d) && t_no_fraction (mkExpr o m) (triple_of d) end) l).
  { apply existsb_same. intros it I. specialize (IT it I). destruct it; cbn [code_item]; now rewrite IT, ?NF. }
  assert (E2 : forallb (code_not_item (mkExpr o m) po) l =
    forallb (fun it => match it with RValue k => negb (t_value (mkExpr o m) k (triple_of d)) | RRange q => negb (t_range (mkExpr o m) q (triple_of d)) && t_no_fraction (mkExpr o m) (triple_of d) end) l).
  { apply forallb_same. intros it I. specialize (IT it I). destruct it; cbn [code_not_item]; now rewrite IT, ?NF. }
  destruct op; congruence.
Qed.

(** ** The view is enough *)
Definition t_view (B P V F Q : N) (s : triple) : triple := let '(i, v, f) := s in (place B P i, N.min v V, place F Q f).
Lemma place_same B P x : P <> 0 -> same_i B P x (place B P x).
Proof.
  intro P0. apply same_i_view; [assumption|]. unfold place. destruct (N.ltb_spec x B) as [L|L].
  - assert (K : x <? B = true) by lia. now rewrite K.
  - destruct (N.ltb_spec (B + (x - B) mod P) B); [lia|]. f_equal. replace (B + (x - B) mod P - B) with ((x - B) mod P) by lia. now rewrite N.mod_mod.
Qed.
Lemma place_mod B P x m : (m | P) -> P <> 0 -> place B P x mod m = x mod m.
Proof.
  intros D P0. destruct (place_same B P x P0) as [<-|(_ & _ & K)]; [reflexivity|]. symmetry. now apply (mod_divides _ _ m P).
Qed.
Lemma place_near B P x : P <> 0 -> x = place B P x \/ B <= x /\ B <= place B P x.
Proof. intro P0. destruct (place_same B P x P0) as [E|(X & Y & _)]; auto. Qed.
Lemma place_zero F Q x : Q <> 0 -> F <> 0 -> (place F Q x =? 0) = (x =? 0).
Proof. intros Q0 F0. destruct (place_near F Q x Q0); lia. Qed.
Lemma t_view_operand B P V F Q s r : relation_viewed B P V F Q r -> P <> 0 -> Q <> 0 -> F <> 0 ->
  t_whole (ex_operand (rel_expr r)) (t_view B P V F Q s) = t_whole (ex_operand (rel_expr r)) s.
Proof. intros _ P0 Q0 F0. destruct s as [[i v] f], (ex_operand (rel_expr r)); cbn [t_whole t_view snd]; try reflexivity. now apply place_zero. Qed.
Lemma t_uts_view B P V F Q s r : relation_viewed B P V F Q r -> P <> 0 -> Q <> 0 -> F <> 0 -> t_uts (t_view B P V F Q s) r = t_uts s r.
Proof.
  intros R P0 Q0 F0. unfold t_uts. rewrite (t_view_operand B P V F Q s r R P0 Q0 F0). destruct R as (W & NW & R).
  set (z := t_whole _ s). clearbody z.
  assert (E : forall it, In it (rel_list r) ->
    form_in (reduced (ex_modulus (rel_expr r)) (t_operand (ex_operand (rel_expr r)) (t_view B P V F Q s))) z it =
    form_in (reduced (ex_modulus (rel_expr r)) (t_operand (ex_operand (rel_expr r)) s)) z it).
  { intros it I. destruct r as [[o m] op l], s as [[i v] f]. unfold relation_repeats in R. cbn [rel_expr rel_list rel_op ex_operand ex_modulus t_view] in *.
    destruct o, m as [m|]; cbn [t_operand reduced] in *; try easy.
    - destruct R as [D _]. now rewrite place_mod.
    - rewrite Forall_forall in R. apply (form_below B); [now apply R|]. destruct (place_near B P i P0); [left|right]; lia.
    - destruct R as [D _]. now rewrite place_mod.
    - rewrite Forall_forall in R. apply (form_below B); [now apply R|]. destruct (place_near B P i P0); [left|right]; lia.
    - rewrite Forall_forall in R. apply (form_below V); [now apply R|]. lia.
    - now rewrite place_mod.
    - rewrite Forall_forall in R. apply (form_below F); [now apply R|]. destruct (place_near F Q f Q0); [left|right]; lia.
    - rewrite Forall_forall in R. rewrite (R it I). cbn [form_in]. f_equal. now apply place_zero. }
  apply existsb_same in E. rewrite E. reflexivity.
Qed.
Lemma t_code_view B P V F Q s r : relation_viewed B P V F Q r -> P <> 0 -> Q <> 0 -> F <> 0 -> t_code (t_view B P V F Q s) r = t_code s r.
Proof.
  intros (W & NW & R) P0 Q0 F0. destruct r as [[o m] op l], s as [[i v] f]. cbn [rel_expr rel_list rel_op ex_operand ex_modulus t_view] in *.
  unfold t_code. cbn [rel_expr rel_list rel_op].
  assert (NF : t_no_fraction (mkExpr o m) (place B P i, N.min v V, place F Q f) = t_no_fraction (mkExpr o m) (i, v, f)).
  { unfold t_no_fraction. cbn [snd]. now rewrite place_zero. }
  pose proof (place_near B P i P0) as Ni. pose proof (place_near F Q f Q0) as Nf. pose proof (place_zero F Q f Q0 F0) as Zf.
  assert (IT : forall it, In it l -> match it with
    | RValue k => t_value (mkExpr o m) k (place B P i, N.min v V, place F Q f) = t_value (mkExpr o m) k (i, v, f)
    | RRange q => t_range (mkExpr o m) q (place B P i, N.min v V, place F Q f) = t_range (mkExpr o m) q (i, v, f) end).
  { intros it I. unfold relation_repeats in R. cbn [rel_expr rel_list ex_operand ex_modulus] in R.
    destruct it as [q|k]; unfold t_value, t_range, plain_n, on_n, between; cbn [ex_operand ex_modulus fst snd];
    destruct o, m as [m|]; cbn [t_operand reduced] in *; try easy.
    all: try (rewrite place_mod; [reflexivity|tauto|assumption]).
    all: try (destruct R as [D R]; try specialize (R eq_refl)).
    all: try (rewrite Forall_forall in R; specialize (R _ I); cbn in R; lia).
    all: try (rewrite Forall_forall in R; specialize (R _ I); cbn in R; rewrite Zf; f_equal; lia).
    all: rewrite Forall_forall in R; specialize (R _ I); try discriminate R; injection R as ->; exact Zf. }
  assert (E1 : existsb (fun it => match it with RValue k => t_value (mkExpr o m) k (place B P i, N.min v V, place F Q f)
      | RRange q => t_range (mkExpr o m) q (place B P i, N.min v V, place F Q f) && t_no_fraction (mkExpr o m) (place B P i, N.min v V, place F Q f) end) l =
    existsb (fun it => match it with RValue k => t_value (mkExpr o m) k (i, v, f) | RRange q => t_range (mkExpr o m) q (i, v, f) && t_no_fraction (mkExpr o m) (i, v, f) end) l).
  { apply existsb_same. intros it I. specialize (IT it I). destruct it; now rewrite IT, ?NF. }
  assert (E2 : forallb (fun it => match it with RValue k => negb (t_value (mkExpr o m) k (place B P i, N.min v V, place F Q f))
      | RRange q => negb (t_range (mkExpr o m) q (place B P i, N.min v V, place F Q f)) && t_no_fraction (mkExpr o m) (place B P i, N.min v V, place F Q f) end) l =
    forallb (fun it => match it with RValue k => negb (t_value (mkExpr o m) k (i, v, f)) | RRange q => negb (t_range (mkExpr o m) q (i, v, f)) && t_no_fraction (mkExpr o m) (i, v, f) end) l).
  { apply forallb_same. intros it I. specialize (IT it I). destruct it; now rewrite IT, ?NF. }
  destruct op; congruence.
Qed.

(** ** Conditions and categories *)
Definition t_condition (rel : triple -> relation -> bool) (s : triple) (c : condition) : bool := existsb (forallb (rel s)) c.
Definition t_verdicts (rules : list (category * condition)) (s : triple) : list bool :=
  List.map (fun rule => match fst rule with OTHER => true | _ => t_condition t_uts s (snd rule) end) rules.
Definition t_select (rules : list (category * condition)) (s : triple) : category :=
  match List.find (fun cc => match fst cc with OTHER => false | _ => t_condition t_code s (snd cc) end) rules with
  | Some (c, _) => c
  | None => OTHER
  end.
Lemma t_condition_same (f g : relation -> bool) (c : condition) : Forall (Forall (fun r => f r = g r)) c -> existsb (forallb f) c = existsb (forallb g) c.
Proof.
  intro H. rewrite Forall_forall in H. apply existsb_same. intros a I. specialize (H a I). rewrite Forall_forall in H. now apply forallb_same.
Qed.
Lemma viewed_relations B P V F Q rules (R : relation -> Prop) : viewed B P V F Q rules -> (forall r, relation_viewed B P V F Q r -> R r) ->
  Forall (fun rule => Forall (Forall R) (snd rule)) rules.
Proof.
  intros H K. unfold viewed in H. revert H. apply Forall_impl. intros rule. apply Forall_impl. intro a. apply Forall_impl. exact K.
Qed.
Lemma t_select_ok B P V F Q rules d po : viewed B P V F Q rules -> P <> 0 -> Q <> 0 -> B <= 2 ^ 53 -> proper d -> represents po d ->
  code_select rules po = t_select rules (triple_of d).
Proof.
  intros Vw P0 Q0 L Pd Rp. unfold code_select, t_select.
  pose proof (viewed_relations _ _ _ _ _ _ _ Vw (fun r K => t_code_ok B P V F Q r d po K P0 Q0 L Pd Rp)) as H.
  assert (E : List.find (fun cc => match fst cc with OTHER => false | _ => code_condition (snd cc) po end) rules =
     List.find (fun cc => match fst cc with OTHER => false | _ => t_condition t_code (triple_of d) (snd cc) end) rules); [|now rewrite E].
  clear Vw. induction H as [|[c k] rules Hr _ IH]; [reflexivity|]. cbn [List.find fst snd] in *.
  assert (C : code_condition k po = t_condition t_code (triple_of d) k) by (apply t_condition_same; exact Hr).
  now rewrite C, IH.
Qed.
Lemma t_select_view B P V F Q rules s : viewed B P V F Q rules -> P <> 0 -> Q <> 0 -> F <> 0 -> t_select rules (t_view B P V F Q s) = t_select rules s.
Proof.
  intros Vw P0 Q0 F0. unfold t_select.
  pose proof (viewed_relations _ _ _ _ _ _ _ Vw (fun r K => t_code_view B P V F Q s r K P0 Q0 F0)) as H.
  assert (E : List.find (fun cc => match fst cc with OTHER => false | _ => t_condition t_code (t_view B P V F Q s) (snd cc) end) rules =
     List.find (fun cc => match fst cc with OTHER => false | _ => t_condition t_code s (snd cc) end) rules); [|now rewrite E].
  clear Vw. induction H as [|[c k] rules Hr _ IH]; [reflexivity|]. cbn [List.find fst snd] in *.
  assert (C : t_condition t_code (t_view B P V F Q s) k = t_condition t_code s k) by (apply t_condition_same; exact Hr).
  now rewrite C, IH.
Qed.
Definition uts_verdicts (rules : list (category * condition)) (d : decimal) : list bool :=
  List.map (fun rule => match fst rule with OTHER => true | _ => uts_condition (snd rule) d end) rules.
Lemma t_verdicts_ok B P V F Q rules d : viewed B P V F Q rules -> P <> 0 -> Q <> 0 -> proper d -> uts_verdicts rules d = t_verdicts rules (triple_of d).
Proof.
  intros Vw P0 Q0 Pd. unfold uts_verdicts, t_verdicts.
  pose proof (viewed_relations _ _ _ _ _ _ _ Vw (fun r K => t_uts_ok B P V F Q r d K P0 Q0 Pd)) as H.
  clear Vw. induction H as [|[c k] rules Hr _ IH]; [reflexivity|]. cbn [List.map fst snd] in *. f_equal; [|exact IH].
  assert (C : uts_condition k d = t_condition t_uts (triple_of d) k) by (apply (t_condition_same (fun r => uts_relation r d)); exact Hr).
  now rewrite C.
Qed.
Lemma t_verdicts_view B P V F Q rules s : viewed B P V F Q rules -> P <> 0 -> Q <> 0 -> F <> 0 -> t_verdicts rules (t_view B P V F Q s) = t_verdicts rules s.
Proof.
  intros Vw P0 Q0 F0. unfold t_verdicts.
  pose proof (viewed_relations _ _ _ _ _ _ _ Vw (fun r K => t_uts_view B P V F Q s r K P0 Q0 F0)) as H.
  clear Vw. induction H as [|[c k] rules Hr _ IH]; [reflexivity|]. cbn [List.map fst snd] in *. f_equal; [|exact IH].
  assert (C : t_condition t_uts (t_view B P V F Q s) k = t_condition t_uts s k) by (apply t_condition_same; exact Hr).
  now rewrite C.
Qed.

(** ** The triples there are *)
Definition upto (n : N) : list N := List.map N.of_nat (seq 0 (N.to_nat n)).
Lemma in_upto x n : In x (upto n) <-> x < n.
Proof.
  unfold upto. rewrite in_map_iff. split.
  - intros (k & <- & I). apply in_seq in I. lia.
  - intro L. exists (N.to_nat x). split; [lia|]. apply in_seq. lia.
Qed.
Definition fractions (V F Q : N) : list (N * N) :=
  flat_map (fun v => List.map (pair v) (upto (if (v <? V) && (v =? 0) then 1 else if (v <? V) && (v =? 1) then N.max 10 F else F + Q))) (upto (V + 1)).
Definition triples (B P V F Q : N) : list triple :=
  let fs := fractions V F Q in flat_map (fun i => List.map (fun '(v, f) => (i, v, f)) fs) (upto (B + P)).
Lemma place_lt B P x : P <> 0 -> place B P x < B + P.
Proof. intro P0. unfold place. pose proof (N.mod_lt (x - B) P P0). destruct (N.ltb_spec x B); lia. Qed.
Lemma place_le B P x : P <> 0 -> place B P x <= x.
Proof. intro P0. unfold place. destruct (N.ltb_spec x B); [lia|]. pose proof (N.mod_le (x - B) P P0). lia. Qed.
Lemma in_triples B P V F Q d : P <> 0 -> Q <> 0 -> proper d -> In (t_view B P V F Q (triple_of d)) (triples B P V F Q).
Proof.
  intros P0 Q0 Pd. unfold triples, t_view, triple_of. apply in_flat_map. exists (place B P (uts_i d)). split; [now apply in_upto, place_lt|].
  apply in_map_iff. exists (N.min (uts_v d) V, place F Q (uts_f d)). split; [reflexivity|].
  unfold fractions. apply in_flat_map. exists (N.min (uts_v d) V). split; [apply in_upto; lia|]. apply in_map. apply in_upto.
  pose proof (place_lt F Q (uts_f d) Q0) as L. pose proof (place_le F Q (uts_f d) Q0) as L'.
  assert (Fl : uts_f d < 10 ^ uts_v d) by exact (frac_value_lt _ Pd).
  destruct (N.ltb_spec (N.min (uts_v d) V) V) as [K|K]; cbn [andb]; [|exact L].
  destruct (N.eqb_spec (N.min (uts_v d) V) 0) as [Z|Z].
  - assert (V0 : uts_v d = 0) by lia. rewrite V0 in Fl. change (10 ^ 0) with 1 in Fl. lia.
  - destruct (N.eqb_spec (N.min (uts_v d) V) 1) as [O|O]; [|exact L].
    assert (V1 : uts_v d = 1) by lia. rewrite V1 in Fl. change (10 ^ 1) with 10 in Fl. lia.
Qed.

(** ** Checking parts *)
Fixpoint bools_eqb (a b : list bool) : bool :=
  match a, b with [], [] => true | x :: a, y :: b => if Bool.eqb x y then bools_eqb a b else false | _, _ => false end.
Lemma bools_eqb_eq a b : bools_eqb a b = true <-> a = b.
Proof.
  revert b. induction a as [|x a IH]; intros [|y b]; cbn [bools_eqb]; split; intro H; try easy.
  - destruct (Bool.eqb_spec x y) as [->|]; [|discriminate]. f_equal. now apply IH.
  - injection H as -> H. rewrite Bool.eqb_reflx. now apply IH.
Qed.
(** parameters for each locale that has idle parts *)
Definition view_params (t : pr_type) (id : langid) : N * N * N * N * N :=
  match t with
  | ORDINAL => (85, 100, 0, 1, 1)
  | CARDINAL =>
      if mem id [lang "ceb"; lang "fil"; lang "tl"] then (4, 10, 1, 1, 10)
      else if mem id [lang "lv"; lang "prg"] then (20, 100, 3, 1, 100)
      else if mem id [lang "cs"; lang "sk"] then (5, 1, 1, 1, 1)
      else (20, 100, 1, 1, 1)
  end.
Definition rules_of (t : pr_type) (id : langid) : list (category * condition) := match find_rules t id with Some r => r | None => [] end.
Definition idle_ok {Y : Type} (sel : list (category * condition) -> triple -> Y) (eqb : Y -> Y -> bool) (t : pr_type) (e : langid * list rule_part) : bool :=
  let '(B, P, V, F, Q) := view_params t (fst e) in
  let rules := rules_of t (fst e) in
  let ts := triples B P V F Q in
  viewedb B P V F Q rules &&
  forallb (fun p => let rules' := leave_out p rules in viewedb B P V F Q rules' && forallb (fun s => eqb (sel rules' s) (sel rules s)) ts) (snd e).
Definition long_idle (t : pr_type) (id : langid) : bool := match t with CARDINAL => mem id [lang "kw"] | ORDINAL => false end.
Lemma idle_uts_check t : forallb (fun e => long_idle t (fst e) || idle_ok t_verdicts bools_eqb t e) (idle_cldr t) = true.
Proof. destruct t; vm_compute; reflexivity. Qed.
Lemma idle_code_check t : forallb (fun e => long_idle t (fst e) || idle_ok t_select cat_eqb t e) (idle_code t) = true.
Proof. destruct t; vm_compute; reflexivity. Qed.

(** Cornish: a number that is 100000 modulo 1000000 is not 0 *)
Definition kw_rules : list (category * condition) := Eval vm_compute in rules_of CARDINAL (lang "kw").
Lemma kw_find : find_rules CARDINAL (lang "kw") = Some kw_rules.
Proof. vm_compute. reflexivity. Qed.
Definition kw_not_zero := mkRel (mkExpr ON None) OpNotEQ [RValue 0].
Definition kw_hundred := mkRel (mkExpr ON (Some 1000000)) OpEQ [RValue 100000].
Lemma kw_alt_uts s : t_uts s kw_not_zero && (t_uts s kw_hundred && true) = t_uts s kw_hundred && true.
Proof.
  destruct s as [[i v] f]. unfold t_uts, kw_not_zero, kw_hundred. cbn [rel_expr rel_op rel_list ex_operand ex_modulus existsb form_in reduced t_operand t_whole snd].
  destruct (N.eqb_spec i 0) as [->|].
  - change (0 mod 1000000 =? 100000) with false. destruct (f =? 0); reflexivity.
  - destruct (f =? 0), (_ =? 100000); reflexivity.
Qed.
Lemma kw_alt_code s : t_code s kw_not_zero && (t_code s kw_hundred && true) = t_code s kw_hundred && true.
Proof.
  destruct s as [[i v] f]. unfold t_code, kw_not_zero, kw_hundred.
  cbn [rel_expr rel_op rel_list ex_operand ex_modulus existsb forallb t_value plain_n reduced t_operand fst snd].
  destruct (N.eqb_spec i 0) as [->|].
  - change (0 mod 1000000 =? 100000) with false. destruct (f =? 0); reflexivity.
  - destruct (f =? 0), (_ =? 100000); reflexivity.
Qed.
Definition kw_part := relation_idle 4 2 0.
Lemma kw_uts s : t_verdicts (leave_out kw_part kw_rules) s = t_verdicts kw_rules s.
Proof.
  cbv [t_verdicts kw_rules leave_out kw_part relation_idle changed without p_rule p_alt p_rel p_item fst snd List.map].
  apply (f_equal (fun x => cons _ (cons _ (cons _ (cons _ (cons x _)))))). unfold t_condition. cbn [existsb]. do 2 apply f_equal. apply (f_equal (fun x => x || false)).
  symmetry. exact (kw_alt_uts s).
Qed.
Lemma kw_code s : t_select (leave_out kw_part kw_rules) s = t_select kw_rules s.
Proof.
  assert (E : forall a b, t_condition t_code s (a :: b :: [[kw_hundred]]) = t_condition t_code s (a :: b :: [[kw_not_zero; kw_hundred]])).
  { intros a b. unfold t_condition. cbn [existsb]. do 2 apply f_equal. apply (f_equal (fun x => x || false)). symmetry. exact (kw_alt_code s). }
  unfold t_select.
  cbv [kw_rules leave_out kw_part relation_idle changed without p_rule p_alt p_rel p_item fst snd]. cbn [List.find fst snd].
  do 3 (destruct (t_condition t_code s _); [reflexivity|]).
  fold kw_not_zero kw_hundred. rewrite E. unfold kw_not_zero, kw_hundred. destruct (t_condition t_code s _); reflexivity.
Qed.

(** ** From the checks to the statements *)
Lemma find_rules_of t id rules : In (id, rules) (cldr t) -> rules_of t id = rules.
Proof. intro I. unfold rules_of. now rewrite (in_find_rules t id rules I). Qed.
Lemma changed_fst {A B} k (f : A * B -> A * B) l : (forall x, fst (f x) = fst x) -> List.map fst (changed k f l) = List.map fst l.
Proof. intro H. revert k. induction l as [|a l IH]; intros [|k]; cbn; f_equal; auto. Qed.
Lemma leave_out_fst p rules : List.map fst (leave_out p rules) = List.map fst rules.
Proof. apply changed_fst. reflexivity. Qed.
Lemma verdicts_select rules rules' d c : List.map fst rules' = List.map fst rules -> uts_verdicts rules' d = uts_verdicts rules d ->
  (cldr_select rules' d c <-> cldr_select rules d c).
Proof.
  intros Fs Vs. rewrite <- !cldr_selectb_iff. assert (E : cldr_selectb rules' d c = cldr_selectb rules d c); [|now rewrite E].
  unfold cldr_selectb. revert rules Fs Vs. induction rules' as [|[c1 k1] rules' IH]; intros [|[c2 k2] rules] Fs Vs; try easy.
  cbn [List.map fst] in Fs. injection Fs as -> Fs. cbn [uts_verdicts List.map fst snd] in Vs. injection Vs as V1 Vs. specialize (IH rules Fs Vs).
  destruct (cat_eqb c OTHER) eqn:O; cbn [forallb existsb]; rewrite IH.
  - destruct c2; try reflexivity; now rewrite V1.
  - destruct c; try discriminate O; destruct c2; try reflexivity; now rewrite V1.
Qed.
Lemma long_idle_kw t id : long_idle t id = true -> t = CARDINAL /\ id = lang "kw".
Proof. destruct t; [|discriminate]. cbn [long_idle]. intro H. apply mem_in in H. destruct H as [<-|[]]. now split. Qed.
Lemma kw_only t id ps : long_idle t id = true -> In (id, ps) (idle_cldr t) \/ In (id, ps) (idle_code t) -> ps = [kw_part].
Proof.
  intros L I. apply long_idle_kw in L as [-> ->].
  assert (K : forallb (fun e => negb (mem (fst e) [lang "kw"]) || match snd e with [p] => if eq_part p kw_part then true else false | _ => false end) (idle_cldr CARDINAL ++ idle_code CARDINAL) = true) by (vm_compute; reflexivity).
  rewrite forallb_forall in K. specialize (K (lang "kw", ps) (proj2 (in_app_iff _ _ _) I)). cbn [fst snd] in K.
  assert (M : mem (lang "kw") [lang "kw"] = true) by (apply mem_in; now left). rewrite M in K. cbn [negb orb] in K.
  destruct ps as [|p [|]]; try discriminate K. destruct (eq_part p kw_part) as [->|]; [reflexivity|discriminate K].
Qed.
Lemma params_ok t id : let '(B, P, V, F, Q) := view_params t id in P <> 0 /\ Q <> 0 /\ F <> 0 /\ B <= 2 ^ 53.
Proof.
  unfold view_params. destruct t; [|repeat split; vm_compute; discriminate].
  destruct (mem id _); [repeat split; vm_compute; discriminate|]. destruct (mem id _); [repeat split; vm_compute; discriminate|].
  destruct (mem id _); repeat split; vm_compute; discriminate.
Qed.
Lemma idle_uts_lemma t id rules p d : In (id, rules) (cldr t) -> idle_in (idle_cldr t) id p -> proper d ->
  uts_verdicts (leave_out p rules) d = uts_verdicts rules d.
Proof.
  intros I (ps & J & K) Pd. pose proof (idle_uts_check t) as H. rewrite forallb_forall in H. specialize (H _ J). cbn [fst] in H.
  destruct (long_idle t id) eqn:L.
  - assert (ps = [kw_part]) by (apply (kw_only t id); auto). subst ps. destruct K as [<-|[]].
    apply long_idle_kw in L as [-> ->]. pose proof (in_find_rules _ _ _ I) as FR. rewrite kw_find in FR. injection FR as <-.
    assert (V1 : viewedb 20001 1000000 3 2 100 kw_rules = true) by (vm_compute; reflexivity).
    assert (V2 : viewedb 20001 1000000 3 2 100 (leave_out kw_part kw_rules) = true) by (vm_compute; reflexivity).
    apply viewedb_ok in V1. apply viewedb_ok in V2.
    rewrite (t_verdicts_ok _ _ _ _ _ _ d V1) by (auto; discriminate). rewrite (t_verdicts_ok _ _ _ _ _ _ d V2) by (auto; discriminate). apply kw_uts.
  - cbn [orb] in H. unfold idle_ok in H. cbn [fst snd] in H. rewrite (find_rules_of t id rules I) in H.
    pose proof (params_ok t id) as Pk. destruct (view_params t id) as [[[[B P] V] F] Q]. destruct Pk as (P0 & Q0 & F0 & _).
    apply andb_true_iff in H as [V1 H]. rewrite forallb_forall in H. specialize (H p K). apply andb_true_iff in H as [V2 H].
    apply viewedb_ok in V1. apply viewedb_ok in V2. rewrite forallb_forall in H.
    rewrite (t_verdicts_ok _ _ _ _ _ _ d V1 P0 Q0 Pd), (t_verdicts_ok _ _ _ _ _ _ d V2 P0 Q0 Pd).
    rewrite <- (t_verdicts_view _ _ _ _ _ _ (triple_of d) V1 P0 Q0 F0), <- (t_verdicts_view _ _ _ _ _ _ (triple_of d) V2 P0 Q0 F0).
    apply bools_eqb_eq, H, in_triples; assumption.
Qed.
Lemma cat_eqb_true a b : cat_eqb a b = true -> a = b.
Proof. destruct a, b; easy. Qed.
Lemma idle_code_lemma t id rules p d po : In (id, rules) (cldr t) -> idle_in (idle_code t) id p -> proper d -> represents po d ->
  code_select (leave_out p rules) po = code_select rules po.
Proof.
  intros I (ps & J & K) Pd Rp. pose proof (idle_code_check t) as H. rewrite forallb_forall in H. specialize (H _ J). cbn [fst] in H.
  destruct (long_idle t id) eqn:L.
  - assert (ps = [kw_part]) by (apply (kw_only t id); auto). subst ps. destruct K as [<-|[]].
    apply long_idle_kw in L as [-> ->]. pose proof (in_find_rules _ _ _ I) as FR. rewrite kw_find in FR. injection FR as <-.
    assert (V1 : viewedb 20001 1000000 3 2 100 kw_rules = true) by (vm_compute; reflexivity).
    assert (V2 : viewedb 20001 1000000 3 2 100 (leave_out kw_part kw_rules) = true) by (vm_compute; reflexivity).
    apply viewedb_ok in V1. apply viewedb_ok in V2. assert (L53 : 20001 <= 2 ^ 53) by (vm_compute; discriminate).
    rewrite (t_select_ok _ _ _ _ _ _ d po V1) by (auto; discriminate). rewrite (t_select_ok _ _ _ _ _ _ d po V2) by (auto; discriminate). apply kw_code.
  - cbn [orb] in H. unfold idle_ok in H. cbn [fst snd] in H. rewrite (find_rules_of t id rules I) in H.
    pose proof (params_ok t id) as Pk. destruct (view_params t id) as [[[[B P] V] F] Q]. destruct Pk as (P0 & Q0 & F0 & L53).
    apply andb_true_iff in H as [V1 H]. rewrite forallb_forall in H. specialize (H p K). apply andb_true_iff in H as [V2 H].
    apply viewedb_ok in V1. apply viewedb_ok in V2. rewrite forallb_forall in H.
    rewrite (t_select_ok _ _ _ _ _ _ d po V1 P0 Q0 L53 Pd Rp), (t_select_ok _ _ _ _ _ _ d po V2 P0 Q0 L53 Pd Rp).
    rewrite <- (t_select_view _ _ _ _ _ _ (triple_of d) V1 P0 Q0 F0), <- (t_select_view _ _ _ _ _ _ (triple_of d) V2 P0 Q0 F0).
    apply cat_eqb_true, H, in_triples; assumption.
Qed.

(** ** Numbers that show what the other parts are for *)
Definition witnesses : list decimal :=
  [mkDecimal 0 []; mkDecimal 1 []; mkDecimal 2 []; mkDecimal 4 []; mkDecimal 6 []; mkDecimal 7 []; mkDecimal 8 []; 
   mkDecimal 9 []; mkDecimal 10 []; mkDecimal 13 []; mkDecimal 14 []; mkDecimal 17 []; mkDecimal 18 []; mkDecimal 19 []; 
   mkDecimal 20 []; mkDecimal 21 []; mkDecimal 22 []; mkDecimal 23 []; mkDecimal 40 []; mkDecimal 41 []; mkDecimal 42 []; 
   mkDecimal 43 []; mkDecimal 50 []; mkDecimal 60 []; mkDecimal 61 []; mkDecimal 62 []; mkDecimal 63 []; mkDecimal 70 []; 
   mkDecimal 71 []; mkDecimal 72 []; mkDecimal 79 []; mkDecimal 80 []; mkDecimal 81 []; mkDecimal 82 []; mkDecimal 83 []; 
   mkDecimal 90 []; mkDecimal 91 []; mkDecimal 92 []; mkDecimal 99 []; mkDecimal 100 []; mkDecimal 105 []; mkDecimal 111 []; 
   mkDecimal 200 []; mkDecimal 300 []; mkDecimal 400 []; mkDecimal 500 []; mkDecimal 600 []; mkDecimal 700 []; 
   mkDecimal 800 []; mkDecimal 900 []; mkDecimal 1000 []; mkDecimal 1001 []; mkDecimal 1004 []; mkDecimal 40000 []; 
   mkDecimal 60000 []; mkDecimal 80000 []; mkDecimal 1000000 []; mkDecimal 1100000 []; mkDecimal 0 [2]; mkDecimal 0 [3]; 
   mkDecimal 0 [4]; mkDecimal 0 [6]; mkDecimal 0 [9]; mkDecimal 1 [1]; mkDecimal 1 [4]; mkDecimal 3 [0]; mkDecimal 5 [0]; 
   mkDecimal 11 [0]; mkDecimal 12 [0]; mkDecimal 20 [0]; mkDecimal 0 [0; 0]; mkDecimal 0 [0; 1]; mkDecimal 1 [0; 0]; 
   mkDecimal 2 [0; 0]; mkDecimal 2 [1; 1]; mkDecimal 0 [0; 1; 1]; mkDecimal 2 [0; 1; 2]].
Definition all_categories := [ZERO; ONE; TWO; FEW; MANY; OTHER].
Definition is_idle (l : list (langid * list rule_part)) (id : langid) (p : rule_part) : bool :=
  existsb (fun e => mem id [fst e] && existsb (fun q => if eq_part p q then true else false) (snd e)) l.
Definition busy_uts (t : pr_type) (e : langid * list (category * condition)) : bool :=
  let base := List.map (fun d => (d, triple_of d, t_verdicts (snd e) (triple_of d))) witnesses in
  forallb (fun p => if is_idle (idle_cldr t) (fst e) p then true else
    let rules' := leave_out p (snd e) in
    match List.find (fun '(_, s, b) => negb (bools_eqb (t_verdicts rules' s) b)) base with
    | Some (d, _, _) => existsb (fun c => xorb (cldr_selectb rules' d c) (cldr_selectb (snd e) d c)) all_categories
    | None => false
    end) (parts (snd e)).
Definition busy_code (t : pr_type) (e : langid * list (category * condition)) : bool :=
  let base := List.map (fun d => (d, triple_of d, t_select (snd e) (triple_of d))) witnesses in
  forallb (fun p => if is_idle (idle_code t) (fst e) p then true else
    let rules' := leave_out p (snd e) in
    viewedb 20001 1000000 3 2 100 rules' &&
    match List.find (fun '(_, s, c) => negb (cat_eqb (t_select rules' s) c)) base with Some _ => true | None => false end) (parts (snd e)).
Lemma busy_uts_check t : forallb (busy_uts t) (cldr t) = true.
Proof. destruct t; vm_compute; reflexivity. Qed.
Lemma busy_code_check t : forallb (busy_code t) (cldr t) = true.
Proof. destruct t; vm_compute; reflexivity. Qed.
Lemma witnesses_ok : forallb (fun d => forallb (fun x => x <? 10) (d_frac d) && (uts_num d <? 2 ^ 53) && (uts_v d <? 10)) witnesses = true.
Proof. vm_compute. reflexivity. Qed.
Lemma is_idle_in l id p : is_idle l id p = true <-> idle_in l id p.
Proof.
  unfold is_idle, idle_in. rewrite existsb_exists. split.
  - intros ([i ps] & I & H). cbn [fst snd] in H. apply andb_true_iff in H as [M H]. apply mem_in in M as [<-|[]].
    apply existsb_exists in H as (q & J & H). exists ps. split; [exact I|]. destruct (eq_part p q) as [->|]; [exact J|discriminate].
  - intros (ps & I & J). exists (id, ps). split; [exact I|]. cbn [fst snd]. apply andb_true_iff. split; [apply mem_in; now left|].
    apply existsb_exists. exists p. split; [exact J|]. destruct (eq_part p p) as [|K]; [reflexivity|now destruct K].
Qed.
Lemma witness_ok d : In d witnesses -> proper d /\ small d.
Proof.
  intro I. pose proof witnesses_ok as H. rewrite forallb_forall in H. specialize (H d I).
  apply andb_true_iff in H as [H V]. apply andb_true_iff in H as [D N].
  split; [|split; lia]. apply Forall_forall. intros x J. rewrite forallb_forall in D. specialize (D x J). lia.
Qed.
Lemma C120_cldr_lemma t id rules p : In (id, rules) (cldr t) -> In p (parts rules) ->
  (idle_in (idle_cldr t) id p <-> forall d c, proper d -> (cldr_select (leave_out p rules) d c <-> cldr_select rules d c)).
Proof.
  intros I J. split.
  - intros K d c Pd. apply verdicts_select; [apply leave_out_fst|]. now apply (idle_uts_lemma t id).
  - intro H. apply is_idle_in. pose proof (busy_uts_check t) as B. rewrite forallb_forall in B. specialize (B _ I).
    unfold busy_uts in B. cbn [fst snd] in B. rewrite forallb_forall in B. specialize (B p J).
    destruct (is_idle (idle_cldr t) id p); [reflexivity|]. exfalso. revert B. cbv zeta.
    destruct (List.find _ _) as [[[d s] b]|] eqn:F; [|discriminate]. intro B.
    apply List.find_some in F as [F _]. apply in_map_iff in F as (d' & E & W). injection E as -> _ _. apply witness_ok in W as [Pd _].
    apply existsb_exists in B as (c & _ & X). specialize (H d c Pd). rewrite <- !cldr_selectb_iff in H.
    destruct (cldr_selectb (leave_out p rules) d c), (cldr_selectb rules d c); try discriminate X; destruct H as [H1 H2]; [now specialize (H1 eq_refl)|now specialize (H2 eq_refl)].
Qed.
Lemma busy_code_witness t id rules p : In (id, rules) (cldr t) -> In p (parts rules) -> ~ idle_in (idle_code t) id p ->
  exists d, proper d /\ small d /\ forall po, represents po d -> code_select (leave_out p rules) po <> code_select rules po.
Proof.
  intros I J K. pose proof (busy_code_check t) as B. rewrite forallb_forall in B. specialize (B _ I).
  unfold busy_code in B. cbn [fst snd] in B. rewrite forallb_forall in B. specialize (B p J).
  destruct (is_idle (idle_code t) id p) eqn:Q; [apply is_idle_in in Q; contradiction|]. cbv zeta in B. apply andb_true_iff in B as [V' B].
  destruct (List.find _ _) as [[[d s] b]|] eqn:F; [|discriminate]. clear B.
  apply List.find_some in F as [F X]. apply in_map_iff in F as (d' & E & W). injection E as -> <- <-. apply witness_ok in W as [Pd Sd].
  exists d. split; [exact Pd|]. split; [exact Sd|]. intros po Rp E. apply viewedb_ok in V'. pose proof (C118_six_lemma t id rules I) as V1.
  assert (L53 : 20001 <= 2 ^ 53) by (vm_compute; discriminate).
  rewrite (t_select_ok _ _ _ _ _ _ d po V1) in E by (auto; discriminate). rewrite (t_select_ok _ _ _ _ _ _ d po V') in E by (auto; discriminate).
  rewrite E in X. destruct (t_select rules (triple_of d)); discriminate X.
Qed.
Lemma C120_code_lemma how w id t pr rules p : create how id t = Ok pr -> In (id, rules) (cldr t) -> In p (parts rules) ->
  (idle_in (idle_code t) id p <->
   forall s d, numeral s d -> small d -> exists po, operands_from_str s = Ok po /\ select w pr (InStr s) = Ok (code_select (leave_out p rules) po)).
Proof.
  intros C I J. destruct (C93_lemma how id t pr C) as (rs & _ & U & H). specialize (U rules I). subst rs. split.
  - intros K s d Nu Sd. destruct (numeral_represents s d Nu Sd) as (po & E & R). exists po. split; [exact E|].
    rewrite (H w (InStr s) po E). f_equal. symmetry. apply (idle_code_lemma t id rules p d po I K); [now apply (numeral_proper s)|exact R].
  - intro K. apply is_idle_in. destruct (is_idle (idle_code t) id p) eqn:Q; [reflexivity|exfalso].
    assert (NI : ~ idle_in (idle_code t) id p) by (rewrite <- is_idle_in, Q; discriminate).
    destruct (busy_code_witness t id rules p I J NI) as (d & Pd & Sd & D). destruct (proper_numeral d Pd) as [s Nu].
    destruct (K s d Nu Sd) as (po & E & S). destruct (numeral_represents s d Nu Sd) as (po' & E' & R). rewrite E' in E. injection E as <-.
    rewrite (H w (InStr s) po' E') in S. injection S as S. now apply (D po' R).
Qed.
Lemma C120_inputs_lemma how id t pr rules p x d : create how id t = Ok pr -> In (id, rules) (cldr t) -> idle_in (idle_code t) id p -> ordinary x d ->
  exists po, converted W64 x = Ok po /\ select W64 pr x = Ok (code_select (leave_out p rules) po).
Proof.
  intros C I K O. destruct (C93_lemma how id t pr C) as (rs & _ & U & H). specialize (U rules I). subst rs.
  destruct (ordinary_ops x d O) as (po & E & R & Pd). exists po.
  assert (E' : converted W64 x = Ok po) by (destruct x; exact E).
  split; [exact E'|]. rewrite (H W64 x po E'). f_equal. symmetry. exact (idle_code_lemma t id rules p d po I K Pd R).
Qed.
(** every part of the shipped rules is for something, in the code or by UTS #35, except the listed ones *)
Lemma idle_cldr_code t id p : idle_in (idle_cldr t) id p -> idle_in (idle_code t) id p.
Proof.
  intros (ps & I & J). apply is_idle_in.
  assert (H : forallb (fun e => forallb (is_idle (idle_code t) (fst e)) (snd e)) (idle_cldr t) = true) by (destruct t; vm_compute; reflexivity).
  rewrite forallb_forall in H. specialize (H _ I). rewrite forallb_forall in H. exact (H p J).
Qed.
