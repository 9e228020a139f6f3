(** * C93, C94: the shipped functions, for every operand set *)
From Coq Require Import Lia Floats.SpecFloat.
From Verif Require Import Base F64 Operands Ast LangId GenRs RustExpr PluralRules Tables Json Cldr ApiProps GenFacts GenMeaning Conformance
  FileSpec MakeBody MakeProps CodeSpec CodeProps CodeMore BehaviourSpec LookSpec.
Open Scope N_scope.

(** ** The arms of every shipped function are the conditions, in order *)
Fixpoint arms_match (arms : list (bexpr * category)) (rs : list (category * condition)) : bool :=
  match arms, rs with
  | [], [] => true
  | (e, c) :: arms, (c', co) :: rs => cat_eqb c c' && expr_is co e && code_fits co && arms_match arms rs
  | _, _ => false
  end.
Definition all_in_order (t : pr_type) : bool :=
  forallb (fun '(id, b) => match find_rules t id with
    | Some rs => cat_eqb (b_else b) OTHER && arms_match (b_arms b) (List.filter not_other rs)
    | None => false end) (prs t).
Lemma all_in_order_true t : all_in_order t = true.
Proof. destruct t; vm_compute; reflexivity. Qed.

Lemma arms_match_all arms rs : arms_match arms rs = true ->
  Forall2 arm_of rs arms /\ forallb (fun cc => code_fits (snd cc)) rs = true.
Proof.
  revert rs. induction arms as [|[e c] arms IH]; intros [|[c' co] rs] H; try discriminate; [split; [constructor|reflexivity]|].
  cbn [arms_match] in H. apply andb_prop in H as [H H4]. apply andb_prop in H as [H H3]. apply andb_prop in H as [H1 H2].
  destruct (IH _ H4) as [I1 I2]. split.
  - constructor; [|exact I1]. apply cat_eqb_eq in H1. apply expr_is_sound in H2. apply cond_expr_ok in H2 as (ts & G & R).
    split; [exact H1|]. exists ts. auto.
  - cbn [forallb snd]. now rewrite H3.
Qed.
Lemma body_code t id b : In (id, b) (prs t) ->
  exists rs, In (id, rs) (cldr t) /\ forall po, eval_body b po = Ok (code_select rs po).
Proof.
  intro I. pose proof (all_in_order_true t) as A. unfold all_in_order in A. rewrite forallb_forall in A.
  specialize (A _ I). cbn in A. destruct (find_rules t id) as [rs|] eqn:F; [|discriminate].
  apply andb_prop in A as [A1 A2]. apply cat_eqb_eq in A1. apply arms_match_all in A2 as [A2 A3].
  exists rs. split; [now apply find_rules_in|]. intro po. unfold eval_body. rewrite A1.
  destruct (arms_meaning rs _ A2) as [B1 B2]. apply B2. now rewrite B1.
Qed.
Lemma C93_lemma how id t pr : create how id t = Ok pr ->
  exists rs, In (id, rs) (cldr t) /\ (forall rs', In (id, rs') (cldr t) -> rs' = rs) /\
    forall w x po, to_operands w x = Ok po -> select w pr x = Ok (code_select rs po).
Proof.
  intro C. apply C22_lemma in C as [I _]. destruct (body_code t id _ I) as (rs & J & E). exists rs. split; [exact J|]. split.
  - intros rs' J'. exact (cldr_unique t id rs' rs J' J).
  - intros w x po H. unfold select. rewrite H. apply E.
Qed.

(** ** The operands a condition looks at *)
Definition op_eqb (a b : operand) : bool :=
  match a, b with ON, ON | OI, OI | OV, OV | OW, OW | OF, OF | OT, OT => true | _, _ => false end.
Lemma op_eqb_eq a b : op_eqb a b = true <-> a = b.
Proof. destruct a, b; split; (reflexivity || discriminate). Qed.
Definition code_of (o : operand) : operand := match o with ON => OI | o => o end.
Definition item_looks (ex : expression) (it : range_list_item) : list operand :=
  match it with
  | RValue _ => if plain_n ex then [ON] else [code_of (ex_operand ex)]
  | RRange _ => if plain_n ex then [OI; OF] else [code_of (ex_operand ex)]
  end.
Definition is_within_op (o : operator) : bool := match o with OpWithin | OpNotWithin => true | _ => false end.
Definition relation_looks (r : relation) : list operand :=
  if is_within_op (rel_op r) then [ON; OI; OV; OW; OF; OT] else flat_map (item_looks (rel_expr r)) (rel_list r).
Definition rules_look (cs : list (category * condition)) : list operand :=
  flat_map (fun cc => match fst cc with OTHER => [] | _ => flat_map (flat_map relation_looks) (snd cc) end) cs.

Definition agree (l : list operand) (a b : operands) : Prop := forall o, In o l -> same o a b.
Lemma agree_app l m a b : agree (l ++ m) a b <-> agree l a b /\ agree m a b.
Proof.
  unfold agree. split.
  - intro H. split; intros o I; apply H, in_or_app; auto.
  - intros [H1 H2] o I. apply in_app_or in I as [I|I]; auto.
Qed.
Lemma code_operand_same o a b : same (code_of o) a b -> code_operand o a = code_operand o b.
Proof. destruct o; cbn; auto. Qed.
Lemma value_same ex v a b : agree (item_looks ex (RValue v)) a b -> code_value ex v a = code_value ex v b.
Proof.
  intro H. cbn [item_looks] in H. unfold code_value. destruct (plain_n ex).
  - assert (K : op_n a = op_n b) by (apply (H ON); now left). now rewrite K.
  - rewrite (code_operand_same (ex_operand ex) a b); [reflexivity|]. apply H. now left.
Qed.
Lemma range_same ex r a b : agree (item_looks ex (RRange r)) a b -> code_range ex r a = code_range ex r b /\ no_fraction ex a = no_fraction ex b.
Proof.
  intro H. cbn [item_looks] in H. unfold code_range, no_fraction. destruct (plain_n ex) eqn:P.
  - assert (K : op_i a = op_i b) by (apply (H OI); now left). assert (L : op_f a = op_f b) by (apply (H OF); right; now left).
    unfold plain_n in P. unfold on_n. destruct (ex_operand ex); try discriminate. now rewrite K, L.
  - assert (K : code_operand (ex_operand ex) a = code_operand (ex_operand ex) b) by (apply code_operand_same, H; now left).
    rewrite K. split; [|reflexivity]. unfold on_n. destruct (ex_operand ex); try reflexivity.
    assert (L : op_i a = op_i b) by exact K. now rewrite L.
Qed.
Lemma item_same ex it a b : agree (item_looks ex it) a b -> code_item ex a it = code_item ex b it /\ code_not_item ex a it = code_not_item ex b it.
Proof.
  intro H. destruct it as [r|v]; cbn [code_item code_not_item].
  - destruct (range_same ex r a b H) as [-> ->]. auto.
  - rewrite (value_same ex v a b H). auto.
Qed.
Lemma agree_all a b : agree [ON; OI; OV; OW; OF; OT] a b -> a = b.
Proof.
  intro H. destruct a, b.
  assert (K := fun o => H o). f_equal; [apply (H ON)|apply (H OI)|apply (H OV)|apply (H OW)|apply (H OF)|apply (H OT)]; cbn; auto 10.
Qed.
Lemma relation_same r a b : agree (relation_looks r) a b -> code_relation a r = code_relation b r.
Proof.
  unfold relation_looks. destruct (is_within_op (rel_op r)) eqn:W; intro H.
  - now rewrite (agree_all _ _ H).
  - assert (K : forall it, In it (rel_list r) -> agree (item_looks (rel_expr r) it) a b).
    { intros it I o J. apply H. apply in_flat_map. eauto. }
    unfold code_relation. destruct (rel_op r); try discriminate.
    all: clear -K; induction (rel_list r) as [|it l IH]; [reflexivity|]; cbn [existsb forallb];
      destruct (item_same _ _ _ _ (K it (or_introl eq_refl))) as [E1 E2]; rewrite ?E1, ?E2; f_equal; apply IH; intros it' I; apply K; now right.
Qed.
Lemma condition_same c a b : agree (flat_map (flat_map relation_looks) c) a b -> code_condition c a = code_condition c b.
Proof.
  intro H. unfold code_condition. induction c as [|ac c IH]; [reflexivity|]. cbn [flat_map existsb] in *. apply agree_app in H as [H1 H2].
  rewrite (IH H2). f_equal. clear IH H2. induction ac as [|r ac IH]; [reflexivity|]. cbn [flat_map forallb] in *.
  apply agree_app in H1 as [H1 H2]. rewrite (IH H2), (relation_same _ _ _ H1). reflexivity.
Qed.
Lemma select_same cs a b : agree (rules_look cs) a b -> code_select cs a = code_select cs b.
Proof.
  intro H. unfold code_select. assert (K : forall l, agree (rules_look l) a b ->
    List.find (fun cc => match fst cc with OTHER => false | _ => code_condition (snd cc) a end) l =
    List.find (fun cc => match fst cc with OTHER => false | _ => code_condition (snd cc) b end) l).
  { induction l as [|[c co] l IH]; [reflexivity|]. cbn [rules_look flat_map List.find fst snd]. intro G. apply agree_app in G as [G1 G2].
    rewrite (IH G2). destruct c; try reflexivity; now rewrite (condition_same co a b G1). }
  now rewrite (K cs H).
Qed.

(** ** The table: what the conditions mention, except that [f] does not matter in
    Cornish ordinals, where "n = 1..4" is weaker than "n % 100 = 1..4" *)
Definition covered (t : pr_type) (id : langid) (rs : list (category * condition)) : bool :=
  forallb (fun o => existsb (op_eqb o) (looks_at t id)) (rules_look rs).
Definition kw : langid := mkLang (Some (bs "kw")) None None None.
Definition is_kw_ordinal (t : pr_type) (id : langid) : bool := match t with ORDINAL => langid_eqb id kw | CARDINAL => false end.
Definition within_table (t : pr_type) : bool :=
  forallb (fun '(id, rs) => is_kw_ordinal t id || covered t id rs) (cldr t).
Lemma within_table_true t : within_table t = true.
Proof. destruct t; vm_compute; reflexivity. Qed.
Definition kw_rules : list (category * condition) := Eval vm_compute in match find_rules ORDINAL kw with Some rs => rs | None => [] end.
Lemma kw_rules_in : In (kw, kw_rules) (cldr ORDINAL).
Proof. apply find_rules_in. vm_compute. reflexivity. Qed.
Lemma kw_same a b : op_n a = op_n b -> op_i a = op_i b -> code_select kw_rules a = code_select kw_rules b.
Proof.
  destruct a as [n i v w f t], b as [n' i' v' w' f' t']. cbn [op_n op_i]. intros <- <-.
  unfold code_select, kw_rules. cbn [List.find fst snd code_condition existsb forallb code_relation rel_op rel_list rel_expr code_item code_value
    code_range no_fraction plain_n on_n ex_operand ex_modulus op_n op_i op_f lower_val upper_val].
  unfold code_condition, code_relation, code_item, code_range, code_value, no_fraction, plain_n, on_n.
  cbn [existsb forallb rel_op rel_list rel_expr ex_operand ex_modulus op_n op_i op_f lower_val upper_val reduced code_operand].
  destruct (between 1 i 4), (f =? 0), (f' =? 0); reflexivity.
Qed.
Lemma C94_same how id t pr w a b : create how id t = Ok pr -> (forall o, In o (looks_at t id) -> same o a b) ->
  select w pr (InOps a) = select w pr (InOps b).
Proof.
  intros C H. destruct (C93_lemma how id t pr C) as (rs & I & U & E). rewrite (E w (InOps a) a eq_refl), (E w (InOps b) b eq_refl). f_equal.
  pose proof (within_table_true t) as T. unfold within_table in T. rewrite forallb_forall in T. specialize (T _ I). cbn beta iota in T.
  apply Bool.orb_true_iff in T as [T|T].
  - unfold is_kw_ordinal in T. destruct t; [discriminate|]. apply langid_eqb_eq in T. subst id.
    rewrite <- (U _ kw_rules_in). apply kw_same; [apply (H ON)|apply (H OI)]; vm_compute; auto.
  - apply select_same. intros o O. apply H. unfold covered in T. rewrite forallb_forall in T. specialize (T o O).
    apply existsb_exists in T as (o' & O1 & O2). apply op_eqb_eq in O2. now subst.
Qed.

(** each operand of the table matters: a search for two operand sets *)
Definition with_op (o : operand) (k : N) (po : operands) : operands :=
  match po with mkOps n i v w f t =>
    match o with
    | ON => mkOps (f64_of_N k) i v w f t | OI => mkOps n k v w f t | OV => mkOps n i k w f t
    | OW => mkOps n i v k f t | OF => mkOps n i v w k t | OT => mkOps n i v w f k
    end end.
Fixpoint ffind {A B} (f : A -> option B) (l : list A) : option B :=
  match l with [] => None | x :: l => match f x with Some y => Some y | None => ffind f l end end.
Definition values : list N := [0; 1; 2; 3; 4; 5; 6; 7; 8; 9; 10; 11; 20; 30; 40; 60; 100; 1000; 2000; 100000; 1000000].
Definition category_of (b : body) (po : operands) : category := match eval_body b po with Ok c => c | _ => OTHER end.
Definition differ (b : body) (o : operand) (po : operands) : option (N * N) :=
  let c := category_of b (with_op o 0 po) in
  ffind (fun k => if cat_eqb c (category_of b (with_op o k po)) then None else Some (0, k)) values.
Definition matters (b : body) (o : operand) : bool :=
  match
    ffind (fun n => ffind (fun i => ffind (fun v => ffind (fun f => ffind (fun t =>
      differ b o (mkOps n i v 0 f t)) [0; 1]) [0; 1; 11]) [0; 1; 2]) values) [S754_nan; S754_zero false]
  with Some _ => true | None => false end.
Definition all_matter (t : pr_type) : bool := forallb (fun '(id, b) => forallb (matters b) (looks_at t id)) (prs t).
Lemma all_matter_true t : all_matter t = true.
Proof. destruct t; vm_compute; reflexivity. Qed.
Lemma ffind_some {A B} (f : A -> option B) l y : ffind f l = Some y -> exists x, f x = Some y.
Proof.
  induction l as [|x l IH]; [discriminate|]. cbn [ffind]. destruct (f x) eqn:F; [|exact IH]. intro H. exists x. congruence.
Qed.
Lemma matters_some b o : matters b o = true -> exists po k, category_of b (with_op o 0 po) <> category_of b (with_op o k po).
Proof.
  unfold matters. destruct (ffind _ _) as [y|] eqn:F; [intros _|discriminate].
  repeat (apply ffind_some in F; destruct F as [? F]).
  destruct (cat_eqb _ _) eqn:Q; [discriminate|]. eexists. eexists. intro X. apply cat_eqb_eq in X. rewrite X in Q. discriminate Q.
Qed.
Lemma with_op_same o o' k k' po : o' <> o -> same o' (with_op o k po) (with_op o k' po).
Proof. destruct po. intro N. destruct o, o'; try reflexivity; now elim N. Qed.
Lemma C94_matters how id t pr w o : create how id t = Ok pr -> In o (looks_at t id) ->
  exists a b, (forall o', o' <> o -> same o' a b) /\ select w pr (InOps a) <> select w pr (InOps b).
Proof.
  intros C O. destruct (C22_lemma how id t pr C) as [I _]. pose proof (all_matter_true t) as T. unfold all_matter in T.
  rewrite forallb_forall in T. specialize (T _ I). cbn beta iota in T. rewrite forallb_forall in T. specialize (T _ O).
  apply matters_some in T as (po & k & N). exists (with_op o 0 po), (with_op o k po). split; [intros o' D; now apply with_op_same|].
  unfold select, to_operands. destruct (body_code t id _ I) as (rs & _ & E). unfold category_of in N. rewrite !E in *. congruence.
Qed.
