(** * Finitely much of a number decides its category (C118) *)
From Coq Require Import Lia ZifyBool ZifyN ZifyNat Floats.SpecFloat.
From Verif Require Import Base F64 DigitFacts LangId GenRs Ast Spec Cldr Operands PluralRules Tables ApiProps OperandsProps RustExpr
  GenMeaning Represents Conformance CodeSpec InputSpec CodeShipped ListProps RepeatSpec RepeatProps Order ViewSpec.
Open Scope N_scope.

(** ** Numbers with integer part [i] and fraction [f / b] *)
Definition form_in (i : N) (z : bool) (it : range_list_item) : bool :=
  match it with
  | RValue k => (i =? k) && z
  | RRange r => z && (lower_val r <=? i) && (i <=? upper_val r)
  end.
Lemma item_form i f b it : f < b -> item_in (i * b + f, b) it = form_in i (f =? 0) it.
Proof.
  intro F. destruct it as [r|k]; cbn [item_in form_in].
  - assert (M : (i * b + f) mod b = f) by (rewrite N.add_comm, N.mod_add by lia; now apply N.mod_small). rewrite M.
    destruct (N.eqb_spec f 0) as [->|]; [|reflexivity]. rewrite N.add_0_r. cbn [andb].
    assert (L : forall a c, (a * b <=? c * b) = (a <=? c)) by (intros a c; destruct (N.leb_spec a c), (N.leb_spec (a * b) (c * b)); nia).
    now rewrite !L.
  - destruct (N.eqb_spec (i * b + f) (k * b)) as [E|E], (N.eqb_spec i k), (N.eqb_spec f 0); cbn; try reflexivity; exfalso; nia.
Qed.
(** the operand as integer part and fraction *)
Definition whole (o : operand) (d : decimal) : N :=
  match o with ON | OI => uts_i d | OV => uts_v d | OW => uts_w d | OF => uts_f d | OT => uts_t d end.
Definition part (o : operand) (d : decimal) : N * N := match o with ON => (uts_f d, uts_den d) | _ => (0, 1) end.
Lemma relation_form r d : proper d -> ex_modulus (rel_expr r) <> Some 0 -> forall it,
  item_in (uts_expr (rel_expr r) d) it =
  form_in (reduced (ex_modulus (rel_expr r)) (whole (ex_operand (rel_expr r)) d)) (fst (part (ex_operand (rel_expr r)) d) =? 0) it.
Proof.
  intros P M it. destruct r as [[o m] op l]. cbn [rel_expr ex_operand ex_modulus] in *. unfold uts_expr. cbn [ex_operand ex_modulus].
  assert (E : uts_operand o d = (whole o d * snd (part o d) + fst (part o d), snd (part o d)) /\ fst (part o d) < snd (part o d)).
  { destruct o; cbn [uts_operand whole part fst snd]; rewrite ?N.mul_1_r, ?N.add_0_r; split; auto; try lia. apply frac_value_lt. exact P. }
  destruct E as [-> L]. set (b := snd (part o d)) in *. set (f := fst (part o d)) in *. clearbody b f.
  destruct m as [m|]; cbn [reduced].
  - assert (m <> 0) by (intros ->; now apply M). set (i := whole o d).
    assert (R : (i * b + f) mod (m * b) = i mod m * b + f).
    { rewrite (N.div_mod i m) at 1 by assumption. symmetry. apply (N.mod_unique _ _ (i / m)); [|nia].
      pose proof (N.mod_lt i m ltac:(assumption)). nia. }
    rewrite R. now apply item_form.
  - now apply item_form.
Qed.

(** ** Equal views *)
Definition same_i (B P x y : N) : Prop := x = y \/ B <= x /\ B <= y /\ x mod P = y mod P.
Lemma same_i_view B P x y : P <> 0 -> place B P x = place B P y -> same_i B P x y.
Proof.
  intros P0. unfold same_i, place. destruct (N.ltb_spec x B), (N.ltb_spec y B); try lia. intro E. right. repeat split; auto.
  assert (F : (x - B) mod P = (y - B) mod P) by lia.
  replace x with ((x - B) + B) by lia. replace y with ((y - B) + B) by lia.
  rewrite (N.add_mod (x - B)), (N.add_mod (y - B)), F by assumption. reflexivity.
Qed.
Lemma form_below B x y z it : item_below B it -> x = y \/ B <= x /\ B <= y -> form_in x z it = form_in y z it.
Proof. intros I [->|[X Y]]; [reflexivity|]. destruct it as [r|k]; cbn [item_below form_in] in *; destruct z; lia. Qed.
Lemma frac_zero_strip l : frac_value (strip_trailing l) = 0 <-> frac_value l = 0.
Proof.
  induction l as [|x l IH]; [reflexivity|]. cbn [strip_trailing frac_value].
  pose proof (N.pow_nonzero 10 (N.of_nat (List.length l)) ltac:(lia)) as T.
  destruct (strip_trailing l) as [|y r] eqn:S.
  - cbn [frac_value] in IH. destruct (N.eqb_spec x 0) as [->|Z]; cbn [frac_value List.length]; [lia|]. change (10 ^ N.of_nat 0) with 1. nia.
  - cbn [frac_value] in *. pose proof (N.pow_nonzero 10 (N.of_nat (List.length (y :: r))) ltac:(lia)). nia.
Qed.
Record alike (B P V F Q : N) (d d' : decimal) : Prop := {
  al_i : same_i B P (uts_i d) (uts_i d');
  al_v : uts_v d = uts_v d' \/ V <= uts_v d /\ V <= uts_v d';
  al_f : same_i F Q (uts_f d) (uts_f d');
  al_z : (uts_f d =? 0) = (uts_f d' =? 0);
  al_t : (uts_t d =? 0) = (uts_t d' =? 0) }.
Lemma view_alike B P V F Q d d' : P <> 0 -> Q <> 0 -> F <> 0 -> view B P V F Q d = view B P V F Q d' -> alike B P V F Q d d'.
Proof.
  intros P0 Q0 F0 E. unfold view in E. injection E as E1 E2 E3. apply same_i_view in E1; [|assumption]. apply same_i_view in E3; [|assumption].
  assert (Z : (uts_f d =? 0) = (uts_f d' =? 0)) by (unfold same_i in E3; lia).
  constructor; auto; [lia|].
  unfold uts_t, uts_f in *. pose proof (frac_zero_strip (d_frac d)). pose proof (frac_zero_strip (d_frac d')). lia.
Qed.

(** ** Both meanings *)
Lemma mod_divides x y m P : (m | P) -> P <> 0 -> x mod P = y mod P -> x mod m = y mod m.
Proof. intros. now apply (mod_same x y m P). Qed.
Lemma existsb_same (A : Type) (p q : A -> bool) l : (forall x, In x l -> p x = q x) -> existsb p l = existsb q l.
Proof. induction l as [|a l IH]; [reflexivity|]. intro H. cbn. rewrite (H a (or_introl eq_refl)). f_equal. apply IH. intros x I. apply H. now right. Qed.
Lemma forallb_same (A : Type) (p q : A -> bool) l : (forall x, In x l -> p x = q x) -> forallb p l = forallb q l.
Proof. induction l as [|a l IH]; [reflexivity|]. intro H. cbn. rewrite (H a (or_introl eq_refl)). f_equal. apply IH. intros x I. apply H. now right. Qed.

Lemma viewed_uts B P V F Q r d d' : relation_viewed B P V F Q r -> P <> 0 -> Q <> 0 -> proper d -> proper d' -> alike B P V F Q d d' ->
  uts_relation r d = uts_relation r d'.
Proof.
  intros (W & NW & R) P0 Q0 Pd Pd' A.
  assert (M0 : ex_modulus (rel_expr r) <> Some 0).
  { intro M. unfold relation_repeats in R. rewrite M in R. destruct (ex_operand (rel_expr r)); try easy.
    - destruct R as [D _]. apply N.divide_0_l in D. easy.
    - destruct R as [D _]. apply N.divide_0_l in D. easy.
    - apply N.divide_0_l in R. easy. }
  assert (E : forall it, In it (rel_list r) -> item_in (uts_expr (rel_expr r) d) it = item_in (uts_expr (rel_expr r) d') it).
  { intros it I. rewrite !relation_form by assumption. destruct r as [[o m] op l]. cbn [rel_expr rel_list rel_op ex_operand ex_modulus] in *.
    assert (Z : (fst (part o d) =? 0) = (fst (part o d') =? 0)) by (destruct o; cbn [part fst]; auto; apply (al_z _ _ _ _ _ _ _ A)). rewrite Z.
    unfold relation_repeats in R. cbn [rel_expr rel_list ex_operand ex_modulus] in R.
    destruct o, m as [m|]; cbn [whole reduced] in *; try easy.
    - destruct R as [D _]. destruct (al_i _ _ _ _ _ _ _ A) as [->|(_ & _ & K)]; [reflexivity|]. now rewrite (mod_divides _ _ m P D P0 K).
    - rewrite Forall_forall in R. apply (form_below B); [now apply R|]. destruct (al_i _ _ _ _ _ _ _ A) as [->|(X & Y & K)]; auto.
    - destruct R as [D _]. destruct (al_i _ _ _ _ _ _ _ A) as [->|(_ & _ & K)]; [reflexivity|]. now rewrite (mod_divides _ _ m P D P0 K).
    - rewrite Forall_forall in R. apply (form_below B); [now apply R|]. destruct (al_i _ _ _ _ _ _ _ A) as [->|(X & Y & K)]; auto.
    - rewrite Forall_forall in R. apply (form_below V); [now apply R|]. apply (al_v _ _ _ _ _ _ _ A).
    - destruct (al_f _ _ _ _ _ _ _ A) as [->|(_ & _ & K)]; [reflexivity|]. now rewrite (mod_divides _ _ m Q R Q0 K).
    - rewrite Forall_forall in R. apply (form_below F); [now apply R|]. destruct (al_f _ _ _ _ _ _ _ A) as [->|(X & Y & K)]; auto.
    - rewrite Forall_forall in R. rewrite (R it I). cbn [form_in]. now rewrite (al_t _ _ _ _ _ _ _ A). }
  unfold uts_relation. apply existsb_same in E. rewrite E. destruct (rel_op r); congruence.
Qed.
Lemma viewed_code B P V F Q r d d' a b : relation_viewed B P V F Q r -> P <> 0 -> Q <> 0 -> B <= 2 ^ 53 -> proper d -> proper d' -> alike B P V F Q d d' ->
  represents a d -> represents b d' -> code_relation a r = code_relation b r.
Proof.
  intros (W & NW & R) P0 Q0 L Pd Pd' A Ra Rb. destruct r as [[o m] op l]. cbn [rel_expr rel_list rel_op ex_operand ex_modulus] in *.
  unfold code_relation. cbn [rel_expr rel_list rel_op].
  unfold relation_repeats in R. cbn [rel_expr rel_list ex_operand ex_modulus] in R.
  pose proof (al_i _ _ _ _ _ _ _ A) as Ai. unfold same_i in Ai. rewrite <- (rp_i _ _ Ra), <- (rp_i _ _ Rb) in Ai.
  pose proof (al_v _ _ _ _ _ _ _ A) as Av. rewrite <- (rp_v _ _ Ra), <- (rp_v _ _ Rb) in Av.
  pose proof (al_f _ _ _ _ _ _ _ A) as Af. unfold same_i in Af. rewrite <- (rp_f _ _ Ra), <- (rp_f _ _ Rb) in Af.
  pose proof (al_z _ _ _ _ _ _ _ A) as Az. rewrite <- (rp_f _ _ Ra), <- (rp_f _ _ Rb) in Az.
  pose proof (al_t _ _ _ _ _ _ _ A) as At. rewrite <- (rp_t _ _ Ra), <- (rp_t _ _ Rb) in At.
  assert (NF : no_fraction (mkExpr o m) a = no_fraction (mkExpr o m) b) by (unfold no_fraction; now rewrite Az).
  assert (EQ : forall k, k < B -> SFeqb (op_n a) (f64_of_N k) = SFeqb (op_n b) (f64_of_N k)).
  { intros k K. rewrite (rp_eq _ _ Ra), (rp_eq _ _ Rb) by lia.
    assert (G : forall e, proper e -> (uts_num e =? k * uts_den e) = (uts_i e =? k) && (uts_f e =? 0)).
    { intros e Pe. exact (item_form (uts_i e) (uts_f e) (uts_den e) (RValue k) (frac_value_lt _ Pe)). }
    rewrite !G by assumption. rewrite <- (al_z _ _ _ _ _ _ _ A). f_equal. rewrite <- (rp_i _ _ Ra), <- (rp_i _ _ Rb). lia. }
  assert (IT : forall it, In it l -> match it with
    | RValue k => code_value (mkExpr o m) k a = code_value (mkExpr o m) k b
    | RRange q => code_range (mkExpr o m) q a = code_range (mkExpr o m) q b end).
  { intros it I. destruct it as [q|k]; unfold code_value, code_range, plain_n, on_n, between, code_operand; cbn [ex_operand ex_modulus];
    destruct o, m as [m|]; cbn [reduced]; try easy; try (destruct R as [D R]).
    - specialize (R eq_refl). rewrite Forall_forall in R. specialize (R _ I). cbn in R. lia.
    - rewrite Forall_forall in R. specialize (R _ I). cbn in R. lia.
    - assert (K : op_i a mod m = op_i b mod m) by (destruct Ai as [->|(_ & _ & K)]; [reflexivity|now apply (mod_divides _ _ m P)]). now rewrite K.
    - rewrite Forall_forall in R. specialize (R _ I). cbn in R. lia.
    - rewrite Forall_forall in R. specialize (R _ I). cbn in R. lia.
    - assert (K : op_f a mod m = op_f b mod m) by (destruct Af as [->|(_ & _ & K)]; [reflexivity|exact (mod_divides _ _ m Q (ex_intro _ D R) Q0 K)]). now rewrite K.
    - rewrite Forall_forall in R. specialize (R _ I). cbn in R. lia.
    - rewrite Forall_forall in R. specialize (R _ I). discriminate R.
    - assert (K : op_i a mod m = op_i b mod m) by (destruct Ai as [->|(_ & _ & K)]; [reflexivity|now apply (mod_divides _ _ m P)]). now rewrite K.
    - rewrite Forall_forall in R. specialize (R _ I). cbn in R. now apply EQ.
    - assert (K : op_i a mod m = op_i b mod m) by (destruct Ai as [->|(_ & _ & K)]; [reflexivity|now apply (mod_divides _ _ m P)]). now rewrite K.
    - rewrite Forall_forall in R. specialize (R _ I). cbn in R. lia.
    - rewrite Forall_forall in R. specialize (R _ I). cbn in R. lia.
    - assert (K : op_f a mod m = op_f b mod m) by (destruct Af as [->|(_ & _ & K)]; [reflexivity|exact (mod_divides _ _ m Q (ex_intro _ D R) Q0 K)]). now rewrite K.
    - rewrite Forall_forall in R. specialize (R _ I). cbn in R. lia.
    - rewrite Forall_forall in R. specialize (R _ I). injection R as ->. exact At. }
  assert (E1 : existsb (code_item (mkExpr o m) a) l = existsb (code_item (mkExpr o m) b) l).
  { apply existsb_same. intros it I. specialize (IT it I). destruct it; cbn [code_item]; now rewrite IT, ?NF. }
  assert (E2 : forallb (code_not_item (mkExpr o m) a) l = forallb (code_not_item (mkExpr o m) b) l).
  { apply forallb_same. intros it I. specialize (IT it I). destruct it; cbn [code_not_item]; now rewrite IT, ?NF. }
  destruct op; congruence.
Qed.
Lemma C118_cldr_lemma B P V F Q rules d d' c : viewed B P V F Q rules -> P <> 0 -> Q <> 0 -> F <> 0 -> proper d -> proper d' ->
  view B P V F Q d = view B P V F Q d' -> (cldr_select rules d c <-> cldr_select rules d' c).
Proof.
  intros R P0 Q0 F0 Pd Pd' A. apply view_alike in A; [|assumption..].
  assert (S : forall e, In e rules -> uts_condition (snd e) d = uts_condition (snd e) d').
  { intros e I. unfold viewed in R. rewrite Forall_forall in R. specialize (R e I). unfold uts_condition. apply existsb_same. intros al J.
    rewrite Forall_forall in R. specialize (R al J). unfold uts_and. apply forallb_same. intros r K. rewrite Forall_forall in R. specialize (R r K).
    exact (viewed_uts B P V F Q r d d' R P0 Q0 Pd Pd' A). }
  rewrite <- !cldr_selectb_iff.
  assert (E : cldr_selectb rules d c = cldr_selectb rules d' c); [|now rewrite E].
  unfold cldr_selectb. destruct (cat_eqb c OTHER).
  - apply forallb_same. intros [c' k] I. specialize (S _ I). cbn [snd] in S. now rewrite S.
  - apply existsb_same. intros [c' k] I. specialize (S _ I). cbn [snd] in S. now rewrite S.
Qed.
Lemma C118_code_lemma B P V F Q rules d d' a b : viewed B P V F Q rules -> P <> 0 -> Q <> 0 -> F <> 0 -> B <= 2 ^ 53 -> proper d -> proper d' ->
  view B P V F Q d = view B P V F Q d' -> represents a d -> represents b d' -> code_select rules a = code_select rules b.
Proof.
  intros R P0 Q0 F0 L Pd Pd' A Ra Rb. apply view_alike in A; [|assumption..]. unfold code_select.
  assert (FF : List.find (fun cc => match fst cc with OTHER => false | _ => code_condition (snd cc) a end) rules =
              List.find (fun cc => match fst cc with OTHER => false | _ => code_condition (snd cc) b end) rules); [|now rewrite FF].
  induction R as [|[c k] rules Rk _ IH]; [reflexivity|]. cbn [List.find fst snd] in *.
  assert (C : code_condition k a = code_condition k b).
  { unfold code_condition. apply existsb_same. intros al J. rewrite Forall_forall in Rk. specialize (Rk al J).
    apply forallb_same. intros r K. rewrite Forall_forall in Rk. specialize (Rk r K). exact (viewed_code B P V F Q r d d' a b Rk P0 Q0 L Pd Pd' A Ra Rb). }
  rewrite C, IH. reflexivity.
Qed.

(** ** Finitely many numerals stand for all *)
Definition stand_in (B P : N) (d : decimal) : decimal :=
  mkDecimal (place B P (uts_i d))
    (match List.rev (d_frac d) with
     | b :: a :: _ :: _ => [if uts_f d <? 100 then 0 else 1; a; b]
     | _ => d_frac d
     end).
Lemma frac_value_app l m : frac_value (l ++ m) = frac_value l * 10 ^ N.of_nat (List.length m) + frac_value m.
Proof.
  induction l as [|x l IH]; [cbn; lia|]. cbn [app frac_value]. rewrite IH, app_length, Nat2N.inj_add, N.pow_add_r. lia.
Qed.
Lemma stand_in_ok B P d : P <> 0 -> proper d -> view B P 3 2 100 (stand_in B P d) = view B P 3 2 100 d /\ proper (stand_in B P d) /\
  d_int (stand_in B P d) < B + P /\ uts_v (stand_in B P d) <= 3.
Proof.
  intros P0 Pd. destruct d as [i f]. unfold stand_in, view, uts_i, uts_v, uts_f, proper in *. cbn [d_int d_frac] in *.
  assert (I : place B P (place B P i) = place B P i /\ place B P i < B + P).
  { unfold place. pose proof (N.mod_lt (i - B) P P0) as ML. destruct (N.ltb_spec i B) as [X|X].
    - assert (Y : (i <? B) = true) by lia. rewrite Y. lia.
    - assert (Y : (B + (i - B) mod P <? B) = false) by lia. rewrite Y. split; [|lia]. f_equal.
      replace (B + (i - B) mod P - B) with ((i - B) mod P) by lia. now apply N.mod_mod. }
  destruct I as [I L]. rewrite I. clear I.
  remember (List.rev f) as g eqn:G. assert (F : f = List.rev g) by (subst g; symmetry; apply List.rev_involutive). clear G. subst f.
  destruct g as [|b [|a [|c g]]]; cbn [List.rev app List.length] in *; try (split; [reflexivity|]; split; [exact Pd|]; split; [exact L|cbn; lia]).
  rewrite <- !List.app_assoc in *. cbn [app] in *. set (h := List.rev g) in *. clearbody h.
  assert (W : N.min (N.of_nat (List.length (h ++ [c; a; b]))) 3 = 3) by (rewrite List.app_length; cbn [List.length]; lia).
  assert (S : frac_value (h ++ [c; a; b]) = frac_value (h ++ [c]) * 100 + (a * 10 + b)).
  { change [c; a; b] with ([c] ++ [a; b]). rewrite List.app_assoc, frac_value_app. cbn [frac_value List.length]. change (10 ^ N.of_nat 2) with 100.
    change (10 ^ N.of_nat 1) with 10. change (10 ^ N.of_nat 0) with 1. lia. }
  rewrite Forall_app in Pd. destruct Pd as [_ Pd]. inversion Pd as [|? ? Hc Pd1]; subst. inversion Pd1 as [|? ? Ha Pd2]; subst. inversion Pd2 as [|? ? Hb _]; subst.
  split; [|split; [|split; [exact L|cbn; lia]]].
  - set (q := frac_value (h ++ [c; a; b])) in *. set (u := frac_value (h ++ [c])) in *. clearbody u q.
    assert (T : frac_value [if q <? 100 then 0 else 1; a; b] = (if q <? 100 then 0 else 1) * 100 + (a * 10 + b)).
    { cbn [frac_value List.length]. change (10 ^ N.of_nat 2) with 100. change (10 ^ N.of_nat 1) with 10. change (10 ^ N.of_nat 0) with 1. lia. }
    assert (E1 : place 2 100 (frac_value [if q <? 100 then 0 else 1; a; b]) = place 2 100 q).
    { rewrite T. destruct (N.ltb_spec q 100) as [Z|Z]; [f_equal; lia|]. unfold place.
      assert (Y1 : (q <? 2) = false) by lia. assert (Y2 : (1 * 100 + (a * 10 + b) <? 2) = false) by lia. rewrite Y1, Y2. f_equal.
      replace (1 * 100 + (a * 10 + b) - 2) with ((98 + (a * 10 + b)) + 0 * 100) by lia.
      replace (q - 2) with ((98 + (a * 10 + b)) + (u - 1) * 100) by lia. now rewrite !N.mod_add by lia. }
    rewrite W, E1. reflexivity.
  - repeat constructor; auto. destruct (_ <? 100); lia.
Qed.
Lemma proper_numeral d : proper d -> exists s, numeral s d.
Proof.
  intro P. destruct d as [i f]. unfold proper in P. cbn [d_frac] in P. destruct (dec_of_N_spec i) as (D & E & N0 & _).
  exists ([] ++ dec_of_N i ++ match List.map (fun c => c + 48) f with [] => [] | _ => 46 :: List.map (fun c => c + 48) f end).
  exists [], (dec_of_N i), (List.map (fun c => c + 48) f). split; [now left|]. split; [exact D|]. split; [exact N0|]. split.
  - unfold digits. apply Forall_forall. intros x I. apply List.in_map_iff in I as (y & <- & I). rewrite Forall_forall in P. specialize (P y I). unfold digit_char. lia.
  - split; [reflexivity|]. rewrite E. f_equal. rewrite List.map_map. rewrite <- (List.map_id f) at 1. apply List.map_ext. intro. lia.
Qed.
Lemma C118_select_lemma how w id t pr rules B P V F Q s s' d d' : create how id t = Ok pr -> In (id, rules) (cldr t) -> viewed B P V F Q rules ->
  P <> 0 -> Q <> 0 -> F <> 0 -> B <= 2 ^ 53 -> numeral s d -> numeral s' d' -> small d -> small d' -> view B P V F Q d = view B P V F Q d' ->
  exists c, select w pr (InStr s) = Ok c /\ select w pr (InStr s') = Ok c.
Proof.
  intros C I R P0 Q0 F0 L Nu Nu' S S' E. destruct (C93_lemma how id t pr C) as (rs & _ & U & H). specialize (U rules I). subst rs.
  destruct (numeral_represents s d Nu S) as (po & O & Rp). destruct (numeral_represents s' d' Nu' S') as (po' & O' & Rp').
  exists (code_select rules po). rewrite (H w (InStr s) po O), (H w (InStr s') po' O'). split; [reflexivity|]. f_equal. symmetry.
  exact (C118_code_lemma B P V F Q rules d d' po po' R P0 Q0 F0 L (numeral_proper s d Nu) (numeral_proper s' d' Nu') E Rp Rp').
Qed.
Lemma suite_small B P d : B + P <= 2 ^ 43 -> proper d -> d_int d < B + P -> uts_v d <= 3 -> small d.
Proof.
  intros L Pp Li Lv. split; [|lia]. unfold uts_num, uts_den.
  assert (Fl : uts_f d < 10 ^ uts_v d) by exact (frac_value_lt _ Pp).
  assert (T3 : 10 ^ uts_v d <= 10 ^ 3) by (apply N.pow_le_mono_r; lia). change (10 ^ 3) with 1000 in T3.
  set (p := 10 ^ uts_v d) in *. clearbody p. set (i := d_int d) in *. clearbody i.
  change (2 ^ 53) with (2 ^ 43 * 1024). set (z := 2 ^ 43) in *. clearbody z. nia.
Qed.
Lemma C118_suite_lemma how w id t pr rules B P : create how id t = Ok pr -> In (id, rules) (cldr t) -> viewed B P 3 2 100 rules ->
  P <> 0 -> B + P <= 2 ^ 43 ->
  (forall s d, numeral s d -> d_int d < B + P -> uts_v d <= 3 -> exists c, select w pr (InStr s) = Ok c /\ cldr_select rules d c) ->
  forall s d, numeral s d -> small d -> exists c, select w pr (InStr s) = Ok c /\ cldr_select rules d c.
Proof.
  intros C I R P0 L T s d Nu S. pose proof (numeral_proper s d Nu) as Pd.
  destruct (stand_in_ok B P d P0 Pd) as (E & Pp & Li & Lv). destruct (proper_numeral _ Pp) as (s' & Nu').
  assert (S' : small (stand_in B P d)) by exact (suite_small B P _ L Pp Li Lv).
  destruct (T s' _ Nu' Li Lv) as (c & Sc & Cc).
  assert (LB : B <= 2 ^ 53) by (change (2 ^ 53) with (2 ^ 43 * 1024); lia).
  destruct (C118_select_lemma how w id t pr rules B P 3 2 100 s s' d _ C I R P0 ltac:(lia) ltac:(lia) LB Nu Nu' S S' (eq_sym E)) as (c' & Sc' & Sc2).
  exists c. split; [congruence|]. apply (C118_cldr_lemma B P 3 2 100 rules (stand_in B P d) d c R P0 ltac:(lia) ltac:(lia) Pp Pd E). exact Cc.
Qed.

(** ** The shipped data *)
Definition relation_viewedb (B P V F Q : N) (r : relation) : bool :=
  match rel_op r with OpWithin | OpNotWithin => false | _ =>
    match ex_operand (rel_expr r), ex_modulus (rel_expr r) with
    | ON, _ | OI, _ => relation_repeatsb B P r
    | OV, None => forallb (item_belowb V) (rel_list r)
    | OF, Some m => negb (m =? 0) && (Q mod m =? 0)
    | OF, None => forallb (item_belowb F) (rel_list r)
    | OT, None => forallb (fun it => match it with RValue 0 => true | _ => false end) (rel_list r)
    | _, _ => false
    end
  end.
Definition viewedb (B P V F Q : N) (rules : list (category * condition)) : bool :=
  forallb (fun rule => forallb (forallb (relation_viewedb B P V F Q)) (snd rule)) rules.
Lemma relation_viewedb_ok B P V F Q r : relation_viewedb B P V F Q r = true -> relation_viewed B P V F Q r.
Proof.
  unfold relation_viewedb, relation_viewed. intro H. split; [intro E; rewrite E in H; discriminate|]. split; [intro E; rewrite E in H; discriminate|].
  assert (H' : match ex_operand (rel_expr r), ex_modulus (rel_expr r) with
    | ON, _ | OI, _ => relation_repeatsb B P r
    | OV, None => forallb (item_belowb V) (rel_list r)
    | OF, Some m => negb (m =? 0) && (Q mod m =? 0)
    | OF, None => forallb (item_belowb F) (rel_list r)
    | OT, None => forallb (fun it => match it with RValue 0 => true | _ => false end) (rel_list r)
    | _, _ => false end = true) by (destruct (rel_op r); easy). clear H.
  assert (Z : forallb (fun it => match it with RValue 0 => true | _ => false end) (rel_list r) = true -> Forall is_zero (rel_list r)).
  { rewrite forallb_forall. intros Z. apply Forall_forall. intros it I. specialize (Z it I). unfold is_zero. destruct it as [|[]]; easy. }
  destruct (ex_operand (rel_expr r)), (ex_modulus (rel_expr r)) as [m|]; auto; try discriminate; try (now apply relation_repeatsb_ok).
  - rewrite forallb_forall in H'. apply Forall_forall. intros it I. apply item_belowb_ok. auto.
  - apply andb_prop in H' as [A1 A2]. apply N.mod_divide; lia.
  - rewrite forallb_forall in H'. apply Forall_forall. intros it I. apply item_belowb_ok. auto.
Qed.
Lemma viewedb_ok B P V F Q rules : viewedb B P V F Q rules = true -> viewed B P V F Q rules.
Proof.
  unfold viewedb, viewed. rewrite forallb_forall. intro H. apply Forall_forall. intros rule I. specialize (H rule I). rewrite forallb_forall in H.
  apply Forall_forall. intros a J. specialize (H a J). rewrite forallb_forall in H. apply Forall_forall. intros r K. apply relation_viewedb_ok. auto.
Qed.
Lemma viewed_six t : forallb (fun e => viewedb 20001 1000000 3 2 100 (snd e)) (cldr t) = true.
Proof. destruct t; vm_compute; reflexivity. Qed.
Lemma viewed_three t : forallb (fun e => long_period t (fst e) || viewedb 1001 1000 3 2 100 (snd e)) (cldr t) = true.
Proof. destruct t; vm_compute; reflexivity. Qed.
Lemma C118_six_lemma t id rules : In (id, rules) (cldr t) -> viewed 20001 1000000 3 2 100 rules.
Proof.
  intro I. pose proof (viewed_six t) as H. rewrite forallb_forall in H. specialize (H _ I). apply viewedb_ok. exact H.
Qed.
Lemma C118_three_lemma t id rules : In (id, rules) (cldr t) -> (t = CARDINAL -> id <> lang "br" /\ id <> lang "kw") -> viewed 1001 1000 3 2 100 rules.
Proof.
  intros I T. apply long_period_not in T. pose proof (viewed_three t) as H. rewrite forallb_forall in H. specialize (H _ I). cbn [fst snd] in H.
  rewrite T in H. apply viewedb_ok. exact H.
Qed.

(** ** Inputs of all types *)
Lemma C118_inputs_lemma how id t pr rules B P V F Q x x' d d' : create how id t = Ok pr -> In (id, rules) (cldr t) -> viewed B P V F Q rules ->
  P <> 0 -> Q <> 0 -> F <> 0 -> B <= 2 ^ 53 -> ordinary x d -> ordinary x' d' -> view B P V F Q d = view B P V F Q d' ->
  exists c, select W64 pr x = Ok c /\ select W64 pr x' = Ok c.
Proof.
  intros C I R P0 Q0 F0 L Or Or' E. destruct (C93_lemma how id t pr C) as (rs & _ & U & H). specialize (U rules I). subst rs.
  destruct (ordinary_ops x d Or) as (po & O & Rp & Pd). destruct (ordinary_ops x' d' Or') as (po' & O' & Rp' & Pd').
  exists (code_select rules po). rewrite (H W64 x po O), (H W64 x' po' O'). split; [reflexivity|]. f_equal. symmetry.
  exact (C118_code_lemma B P V F Q rules d d' po po' R P0 Q0 F0 L Pd Pd' E Rp Rp').
Qed.
Lemma C118_suite_all_lemma how id t pr rules B P : create how id t = Ok pr -> In (id, rules) (cldr t) -> viewed B P 3 2 100 rules ->
  P <> 0 -> B + P <= 2 ^ 43 ->
  (forall s d, numeral s d -> d_int d < B + P -> uts_v d <= 3 -> exists c, select W64 pr (InStr s) = Ok c /\ cldr_select rules d c) ->
  forall x d, ordinary x d -> exists c, select W64 pr x = Ok c /\ cldr_select rules d c.
Proof.
  intros C I R P0 L T x d Or. destruct (ordinary_ops x d Or) as (po & O & Rp & Pd).
  destruct (stand_in_ok B P d P0 Pd) as (E & Pp & Li & Lv). destruct (proper_numeral _ Pp) as (s' & Nu').
  assert (S' : small (stand_in B P d)) by exact (suite_small B P _ L Pp Li Lv).
  destruct (T s' _ Nu' Li Lv) as (c & Sc & Cc).
  assert (LB : B <= 2 ^ 53) by (change (2 ^ 53) with (2 ^ 43 * 1024); lia).
  assert (Or' : ordinary (InStr s') (stand_in B P d)) by (constructor; split; [exact Nu'|left; exact S']).
  destruct (C118_inputs_lemma how id t pr rules B P 3 2 100 x (InStr s') d _ C I R P0 ltac:(lia) ltac:(lia) LB Or Or' (eq_sym E)) as (c' & Sc' & Sc2).
  exists c. split; [congruence|]. apply (C118_cldr_lemma B P 3 2 100 rules (stand_in B P d) d c R P0 ltac:(lia) ltac:(lia) Pp Pd E). exact Cc.
Qed.
