(** * Lemmas behind C122 *)
From Coq Require Import Lia Lra Reals Floats.SpecFloat.
From Flocq Require Import Core IEEE754.BinarySingleNaN.
From Verif Require Import Base F64 Operands Ast LangId GenRs GenPr RustExpr PluralRules Tables Json Cldr Spec SpecR F64Facts ApiProps
  DigitFacts OperandsFacts OperandsProps FloatProps GenFacts GenMeaning Represents Conformance ConformanceProps BehaviourSpec SpellingProps
  Exclusive WrongSpec WrongProps LengthSpec LengthProps FloatAny IntTextSpec.
Open Scope N_scope.

(** ** Code that compares n with small integers only *)
Fixpoint plain_n (e : bexpr) : bool :=
  match e with
  | BCmpNL (NField ON) (CEq | CNe) (LFloat k) => k <? 1000
  | BCmpNL (NField ON) _ _ | BCmpNL (NMod ON _) _ _ => false
  | BCmpNL _ _ _ => true
  | BCmpLN _ _ _ => false
  | BContains _ _ (NField ON) | BContains _ _ (NMod ON _) => false
  | BContains _ _ _ => true
  | BNot b => plain_n b
  | BAnd a b | BOr a b => plain_n a && plain_n b
  end.
Definition same_but_n (a b : operands) : Prop :=
  op_i a = op_i b /\ op_v a = op_v b /\ op_w a = op_w b /\ op_f a = op_f b /\ op_t a = op_t b /\
  (forall k, k < 1000 -> SFeqb (op_n a) (f64_of_N k) = SFeqb (op_n b) (f64_of_N k)).
Lemma plain_int x a b : same_but_n a b -> is_float x = false -> eval_int x a = eval_int x b.
Proof.
  intros (I & V & W & F & T & _) X. destruct x as [[]|[] m]; try discriminate X; cbn; now rewrite ?I, ?V, ?W, ?F, ?T.
Qed.
Lemma plain_eq e a b : plain_n e = true -> same_but_n a b -> eval e a = eval e b.
Proof.
  intros H A. induction e as [x op l|l op x|lo hi x|e IH|e1 IH1 e2 IH2|e1 IH1 e2 IH2]; cbn [plain_n] in H.
  - cbn [eval]. destruct (is_float x) eqn:X; [|now rewrite (plain_int x a b A X)].
    destruct x as [[]|[] m]; try discriminate.
    assert (K : exists k, l = LFloat k /\ k < 1000 /\ (op = CEq \/ op = CNe)).
    { destruct op, l as [k|k]; try discriminate; apply N.ltb_lt in H; eauto. }
    destruct K as (k & -> & K & Q). cbn [lit_float rbind]. destruct A as (_ & _ & _ & _ & _ & A).
    destruct Q as [->| ->]; cbn [cmp_float]; now rewrite (A k K).
  - discriminate.
  - cbn [eval]. destruct (is_float x) eqn:X; [destruct x as [[]|[] m]; discriminate|]. now rewrite (plain_int x a b A X).
  - cbn [eval]. now rewrite IH.
  - apply andb_prop in H as [H1 H2]. cbn [eval]. now rewrite IH1, IH2.
  - apply andb_prop in H as [H1 H2]. cbn [eval]. now rewrite IH1, IH2.
Qed.
Definition body_plain (f : body) : bool := forallb (fun '(e, _) => plain_n e) (b_arms f).
Lemma body_plain_eq f a b : body_plain f = true -> same_but_n a b -> eval_body f a = eval_body f b.
Proof.
  unfold body_plain, eval_body. intros H A. induction (b_arms f) as [|[e c] r IH]; [reflexivity|].
  cbn [forallb] in H. apply andb_prop in H as [H1 H2]. cbn [eval_arms]. now rewrite (plain_eq e a b H1 A), IH.
Qed.
Lemma all_plain t : forallb (fun e => body_plain (snd e)) (prs t) = true.
Proof. destruct t; vm_compute; reflexivity. Qed.
Lemma shipped_plain how id t pr : create how id t = Ok pr -> body_plain (pr_function pr) = true.
Proof.
  intro C. apply C22_lemma in C as [I _]. pose proof (all_plain t) as H. rewrite forallb_forall in H. exact (H _ I).
Qed.

(** ** How an integer is read *)
Lemma whole_operands s D : numeral s (whole D) -> operands_from_str s = Ok (mkOps (f64_of_N D) (float_to_u64 (f64_of_N D)) 0 0 0 0).
Proof.
  intros (sg & i & f & S & Di & Ni & Df & -> & E). unfold whole in E. destruct f as [|c f]; [|discriminate E].
  rewrite app_nil_r, from_str_int by auto. injection E as ->. reflexivity.
Qed.
Lemma read_trunc D u : read_as D u -> u = float_to_u64 (f64_of_N D).
Proof.
  intros (y & Ne & H). rewrite <- dec_real_int in Ne. pose proof Ne as Ne'. apply nearest64_dec in Ne. unfold f64_of_N. rewrite Ne.
  destruct H as [[-> ->]|(F & k & V & ->)]; [reflexivity|].
  pose proof (float_to_u64_correct y) as C.
  assert (S : sign_SF y = false) by (destruct Ne' as [(_ & _ & S & _)|[_ ->]]; [exact S|reflexivity]).
  specialize (C F S). rewrite V, Zfloor_IZR in C. unfold u64_max in *. lia.
Qed.
Lemma read_exists D : read_as D (float_to_u64 (f64_of_N D)).
Proof.
  pose proof (dec64_nearest' D 0) as Ne. rewrite dec_real_int in Ne. exists (f64_of_N D). split; [exact Ne|].
  destruct (N.le_gt_cases D (2 ^ 53)) as [L|L].
  - right. destruct (f64_of_N_exact D L) as (A & B & _). split; [exact B|]. exists D. split; [exact A|].
    rewrite f64_of_N_trunc_exact by exact L. lia.
  - destruct (big_float D ltac:(lia)) as [E|(m & p & E & _)].
    + left. rewrite E. split; reflexivity.
    + right. rewrite E. split; [reflexivity|]. exists (N.pos m * 2 ^ N.pos p). split; [apply value_N|reflexivity].
Qed.
Lemma trunc_max x : float_to_u64 x <= u64_max.
Proof. destruct x as [| [] | |[] m e]; cbn [float_to_u64]; try (unfold u64_max; lia); apply N.le_min_r. Qed.
Lemma alike D : same_but_n (mkOps (f64_of_N D) (float_to_u64 (f64_of_N D)) 0 0 0 0) (operands_from_unsigned (float_to_u64 (f64_of_N D))).
Proof.
  destruct (N.le_gt_cases D (2 ^ 53)) as [L|L].
  - rewrite f64_of_N_trunc_exact by exact L. repeat split.
  - unfold same_but_n, operands_from_unsigned. cbn [op_n op_i op_v op_w op_f op_t]. do 5 (split; [reflexivity|]).
    intros k K. destruct (big_operands D ltac:(lia)) as (_ & H & _). cbn [op_n] in H. rewrite (H k K). symmetry.
    assert (B : 2 ^ 53 <= float_to_u64 (f64_of_N D)).
    { pose proof (big_float D ltac:(lia)) as G. cbv zeta in G. destruct G as [->|(m & p & E & G)]; [cbn; unfold u64_max; lia|].
      rewrite E in *. rewrite value_N in G. apply le_IZR in G. cbn [float_to_u64]. unfold u64_max. lia. }
    destruct (big_operands (float_to_u64 (f64_of_N D)) B) as (_ & H' & _). exact (H' k K).
Qed.
Lemma C122_same_lemma how id t pr w s D u : create how id t = Ok pr -> numeral s (mkDecimal D []) -> read_as D u ->
  u < 2 ^ 64 /\ select w pr (InStr s) = select w pr (InUnsigned u).
Proof.
  intros C Nm R. apply read_trunc in R. subst u. split; [pose proof (trunc_max (f64_of_N D)); unfold u64_max in *; lia|].
  unfold select. cbn [to_operands]. rewrite (whole_operands s D Nm). apply body_plain_eq; [now apply (shipped_plain how id t)|apply alike].
Qed.
Lemma C122_read_lemma D : (exists u, read_as D u) /\ (forall u u', read_as D u -> read_as D u' -> u = u') /\
  (D <= 2 ^ 53 -> read_as D D).
Proof.
  split; [eexists; apply read_exists|]. split; [intros u u' A B; apply read_trunc in A, B; congruence|].
  intro L. rewrite <- (f64_of_N_trunc_exact D L) at 2. apply read_exists.
Qed.

(** ** When the category is right *)
Lemma C122_exactly_lemma how id t pr w s D u : create how id t = Ok pr -> numeral s (mkDecimal D []) -> read_as D u ->
  exists rules c, In (id, rules) (cldr t) /\ select w pr (InStr s) = Ok c /\
    (cldr_select rules (mkDecimal u []) c <-> wrong_number t id (mkDecimal u []) = false) /\
    (wrong_number t id (mkDecimal u []) = false ->
      (cldr_select rules (mkDecimal D []) c <-> forall c', cldr_select rules (mkDecimal D []) c' <-> cldr_select rules (mkDecimal u []) c')).
Proof.
  intros C Nm R. destruct (C122_same_lemma how id t pr w s D u C Nm R) as [U E].
  destruct (wrong_exact_unsigned how id t pr w u C U) as (rules & c & I & S & H).
  exists rules, c. split; [exact I|]. split; [now rewrite E|]. split; [exact H|]. intro W. apply H in W.
  split; [|intro K; now apply K].
  intros K c'. split; intro Q.
  - now rewrite (C33_unique t id rules (mkDecimal D []) c' c I (Forall_nil _) Q K).
  - now rewrite (C33_unique t id rules (mkDecimal u []) c' c I (Forall_nil _) Q W).
Qed.

Definition int_witnesses : list bytes :=
  [bs "9007199254740993"; bs "9007199254740995"; bs "9007199254740999"; bs "9007199254741001"; bs "9007199254741003";
   bs "9007199254741005"; bs "9007199254741021"].
Definition int_wrong_at (b : body) (rs : list (category * condition)) (s : bytes) : bool :=
  match eval_body b (mkOps (f64_of_N (dval s)) (float_to_u64 (f64_of_N (dval s))) 0 0 0 0) with
  | Ok c => negb (cldr_selectb rs (mkDecimal (dval s) []) c)
  | _ => false
  end.
Definition int_ok (l : list (langid * list (category * condition))) (t : pr_type) (e : langid * body) : bool :=
  match rules_in l (fst e) with
  | None => false
  | Some rs =>
      if BehaviourSpec.listed (fst e) (last_digits_matter t)
      then match List.find (int_wrong_at (snd e) rs) int_witnesses with Some _ => true | None => false end
      else rules_robust rs && rules_supported false rs && body_matches (snd e) rs && body_even (snd e) && negb (mem (fst e) (integer_wrong t))
  end.
Lemma all_int t : forallb (int_ok (cldr t) t) (prs t) = true.
Proof. destruct t; vm_compute; reflexivity. Qed.
Lemma entry_int how id t pr : create how id t = Ok pr -> int_ok (cldr t) t (id, pr_function pr) = true.
Proof.
  intro C. apply C22_lemma in C as [I _]. pose proof (all_int t) as H. rewrite forallb_forall in H. exact (H _ I).
Qed.
Lemma C122_right_lemma how id t pr w s D : create how id t = Ok pr -> BehaviourSpec.listed id (last_digits_matter t) = false ->
  numeral s (mkDecimal D []) ->
  exists rules c, In (id, rules) (cldr t) /\ select w pr (InStr s) = Ok c /\ cldr_select rules (mkDecimal D []) c.
Proof.
  intros C L Nm. pose proof C as C'. apply entry_int in C. unfold int_ok in C. cbn [fst snd] in C. rewrite L in C.
  change (rules_in (cldr t) id) with (find_rules t id) in C. destruct (find_rules t id) as [rs|] eqn:F; [|discriminate].
  apply andb_prop in C as [C C5]. apply andb_prop in C as [C C4]. apply andb_prop in C as [C C3]. apply andb_prop in C as [C1 C2].
  destruct (N.le_gt_cases (2 ^ 53) D) as [G|G].
  - assert (P : proper (whole 1000)) by constructor.
    destruct (body_follows false (pr_function pr) rs thousand (whole 1000) C3 C2 thousand_represents P ltac:(discriminate)) as (c & E & S).
    exists rs, c. split; [now apply find_rules_in|]. split.
    + unfold select. cbn [to_operands]. rewrite (whole_operands s D Nm), <- E. apply body_even_eq; [exact C4|]. now apply big_operands.
    + apply select_clamp; [constructor|exact C1|]. unfold clamp. cbn [d_int d_frac]. rewrite N.min_r by lia. exact S.
  - apply (follows_str how id t pr w s (mkDecimal D []) C' Nm).
    + split; [unfold uts_num, uts_den, uts_f, uts_v; cbn; lia|cbn; lia].
    + intro K. apply mem_in in K. rewrite K in C5. discriminate.
    + reflexivity.
Qed.
Lemma C122_matter_lemma how id t pr w : create how id t = Ok pr -> BehaviourSpec.listed id (last_digits_matter t) = true ->
  exists s D rules c, numeral s (mkDecimal D []) /\ 2 ^ 53 < D < 2 ^ 64 /\ In (id, rules) (cldr t) /\
    select w pr (InStr s) = Ok c /\ ~ cldr_select rules (mkDecimal D []) c.
Proof.
  intros C L. apply entry_int in C. unfold int_ok in C. cbn [fst snd] in C. rewrite L in C.
  change (rules_in (cldr t) id) with (find_rules t id) in C. destruct (find_rules t id) as [rs|] eqn:F; [|discriminate].
  destruct (List.find _ int_witnesses) as [s|] eqn:FD; [|discriminate]. apply List.find_some in FD as [I W]. unfold int_wrong_at in W.
  destruct (eval_body (pr_function pr) _) as [c| |] eqn:E; try discriminate.
  assert (A : forallb (fun s => negb (match s with [] => true | _ => false end) && forallb is_digit s && (2 ^ 53 <? dval s) && (dval s <? 2 ^ 64)) int_witnesses = true)
    by (vm_compute; reflexivity).
  rewrite forallb_forall in A. specialize (A _ I). cbv beta in A. apply andb_prop in A as [A A4]. apply andb_prop in A as [A A3]. apply andb_prop in A as [A1 A2].
  apply digits_forallb in A2. apply N.ltb_lt in A3, A4.
  assert (Nm : numeral s (mkDecimal (dval s) [])).
  { exists [], s, []. split; [now left|]. split; [exact A2|]. split; [intro K; unfold bytes in K; rewrite K in A1; discriminate|].
    split; [constructor|]. rewrite app_nil_r. split; reflexivity. }
  exists s, (dval s), rs, c. split; [exact Nm|]. split; [now split|]. split; [now apply find_rules_in|].
  split; [unfold select; cbn [to_operands]; now rewrite (whole_operands s _ Nm)|].
  intro K. apply cldr_selectb_iff in K. rewrite K in W. discriminate.
Qed.
