(** * C91: what the generated condition tests *)
From Coq Require Import Lia Floats.SpecFloat.
From Verif Require Import Base F64 Operands Ast Tokens GenPr RustExpr Spec CodeSpec DigitFacts GenFacts GenMeaning.
Open Scope N_scope.

Lemma fits_max k : (k <=? u64_max) = (k <? 2 ^ 64).
Proof. unfold u64_max. destruct (N.leb_spec k (2 ^ 64 - 1)), (N.ltb_spec k (2 ^ 64)); auto; lia. Qed.
Lemma first_range_nth l : nth_error (ranges_of l) 0 = first_range l.
Proof. induction l as [|[r|v] l IH]; cbn; auto. Qed.

(** ** One item *)
Lemma compiles_value neg ex v : compiles (BCmpNL (value_num ex) (if neg : bool then CNe else CEq) (value_lit ex v)) =
  modulus_fits ex && literal_fits ex v.
Proof.
  destruct ex as [o m]. unfold value_num, value_lit, modulus_fits, literal_fits, plain_n. cbn [ex_operand ex_modulus].
  destruct o, m; cbn [compiles num_ok lit_ok is_float]; rewrite ?fits_max; cbn [negb orb andb]; rewrite ?Bool.andb_true_r; reflexivity.
Qed.
Lemma value_eval neg ex v po : modulus_fits ex && literal_fits ex v = true ->
  eval (BCmpNL (value_num ex) (if neg : bool then CNe else CEq) (value_lit ex v)) po = Ok (xorb neg (code_value ex v po)).
Proof.
  destruct ex as [o m]. unfold modulus_fits, literal_fits, code_value, plain_n, value_num, value_lit, reduced, code_operand.
  cbn [ex_operand ex_modulus].
  destruct o, m as [m|]; cbn [orb andb]; intro H;
    try (apply andb_prop in H as [HM H]; apply andb_prop in HM as [HM _]; apply Bool.negb_true_iff in HM);
    cbn [eval is_float lit_int lit_float eval_int int_field unwrap rbind]; rewrite ?fits_max, ?H, ?HM;
    cbn [rbind]; destruct neg; cbn [cmp_int cmp_float]; rewrite ?Bool.xorb_true_l, ?Bool.xorb_false_l; reflexivity.
Qed.
Lemma compiles_range neg ex r : forallb compiles (range_conj neg ex r) = code_item_fits ex (RRange r).
Proof.
  destruct ex as [o m], r as [a b]. unfold range_conj, code_item_fits, range_num, on_n, modulus_fits, f_is_0. cbn [ex_operand ex_modulus lower_val upper_val].
  destruct neg, o, m; cbn [forallb compiles num_ok lit_ok is_float negb andb orb]; rewrite ?fits_max, ?Bool.andb_true_r; reflexivity.
Qed.
Lemma range_eval neg ex r po : code_item_fits ex (RRange r) = true ->
  res_and (evals po (range_conj neg ex r)) = Ok (xorb neg (code_range ex r po) && no_fraction ex po).
Proof.
  destruct ex as [o m], r as [a b].
  unfold range_conj, code_item_fits, range_num, modulus_fits, code_range, between, no_fraction, plain_n, reduced, code_operand, evals, f_is_0, on_n.
  cbn [ex_operand ex_modulus lower_val upper_val]. intro H.
  destruct o, m as [m|]; cbn [orb andb] in H;
    apply andb_prop in H as [H HB]; try (apply andb_prop in H as [HM H]; apply andb_prop in HM as [HM _]; apply Bool.negb_true_iff in HM);
    destruct neg; cbn [List.map res_and eval is_float lit_int lit_float eval_int int_field unwrap rbind]; rewrite ?fits_max, ?H, ?HB;
    cbn [rbind]; rewrite ?HM; cbn [rbind cmp_int]; change (0 <? 2 ^ 64) with true; cbn [rbind];
    rewrite ?Bool.xorb_true_l, ?Bool.xorb_false_l, ?Bool.andb_true_r;
    match goal with |- context [a <=? ?x] => destruct (a <=? x), (x <=? b) end; cbn [negb andb rbind]; try reflexivity;
    now destruct (op_f po =? 0).
Qed.
Lemma within_compiles r r0 : is_within (rel_op r) = true -> forallb compiles (within_conj r r0) =
  modulus_fits (rel_expr r) && literal_fits (rel_expr r) (lower_val r0) && literal_fits (rel_expr r) (upper_val r0).
Proof.
  destruct r as [[o m] op l], r0 as [a b]. unfold within_conj, within_num, value_lit, modulus_fits, literal_fits, plain_n.
  cbn [rel_op rel_expr ex_operand ex_modulus lower_val upper_val]. intros _.
  destruct o, m as [m|]; cbn [forallb compiles num_ok lit_ok is_float negb andb orb]; rewrite ?fits_max, ?Bool.andb_true_r; try reflexivity;
    destruct (negb (m =? 0) && (m <? 2 ^ 64)), (a <? 2 ^ 64), (b <? 2 ^ 64); reflexivity.
Qed.
Lemma within_eval r r0 po : is_within (rel_op r) = true ->
  modulus_fits (rel_expr r) && literal_fits (rel_expr r) (lower_val r0) && literal_fits (rel_expr r) (upper_val r0) = true ->
  res_and (evals po (within_conj r r0)) =
  Ok (match rel_op r with OpWithin => code_within (rel_expr r) r0 po | _ => code_not_within (rel_expr r) r0 po end).
Proof.
  destruct r as [[o m] op l], r0 as [a b].
  unfold within_conj, within_num, value_lit, modulus_fits, literal_fits, code_within, code_not_within, within_operand, code_operand, between, plain_n, evals.
  cbn [rel_op rel_expr ex_operand ex_modulus lower_val upper_val]. intros W H.
  assert (B : forall x y : bool, (if x then if y then Ok true else Ok false else Ok false) = Ok (x && y)) by (intros [] []; reflexivity).
  destruct op; try discriminate W; destruct o, m as [m|]; cbn [orb andb] in H;
    try (apply andb_prop in H as [H HB]; try (apply andb_prop in H as [HM H]); try (apply andb_prop in HM as [HM _]; apply Bool.negb_true_iff in HM));
    cbn [List.map res_and eval is_float lit_int lit_float eval_int int_field unwrap rbind]; rewrite ?fits_max, ?H, ?HB;
    cbn [rbind]; rewrite ?HM; cbn [rbind cmp_int cmp_float]; apply B.
Qed.

(** ** One relation *)
Definition neg_conj (neg : bool) (ex : expression) (po : operands) (it : range_list_item) : bool :=
  if neg then code_not_item ex po it else code_item ex po it.
Lemma item_eval neg ex it po : code_item_fits ex it = true ->
  res_and (evals po (item_conj neg ex it)) = Ok (neg_conj neg ex po it).
Proof.
  intro H. destruct it as [r|v]; cbn [item_conj].
  - rewrite (range_eval neg ex r po H). unfold neg_conj. now destruct neg; cbn [code_item code_not_item]; rewrite ?Bool.xorb_true_l, ?Bool.xorb_false_l.
  - cbn [code_item_fits] in H. cbn [value_conj evals List.map]. rewrite res_and_single, (value_eval neg ex v po H).
    unfold neg_conj. now destruct neg; cbn [code_item code_not_item]; rewrite ?Bool.xorb_true_l, ?Bool.xorb_false_l.
Qed.
Lemma item_compiles_eq neg ex it : forallb compiles (item_conj neg ex it) = code_item_fits ex it.
Proof.
  destruct it as [r|v]; cbn [item_conj]; [apply compiles_range|].
  cbn [value_conj forallb code_item_fits]. now rewrite Bool.andb_true_r, compiles_value.
Qed.
Definition items_of (l : range_list) : range_list := List.map RValue (values_of l) ++ List.map RRange (ranges_of l).
Lemma item_conjs_items neg r : item_conjs neg r = List.map (item_conj neg (rel_expr r)) (items_of (rel_list r)).
Proof. unfold item_conjs, items_of. now rewrite map_app, !map_map. Qed.
Lemma items_in l it : In it (items_of l) <-> In it l.
Proof.
  unfold items_of. rewrite in_app_iff, !in_map_iff. split.
  - intros [(v & <- & H)|(v & <- & H)]; [now apply in_values|now apply in_ranges].
  - intro H. destruct it as [r|v]; [right; exists r|left; exists v]; (split; [reflexivity|]); apply in_flat_map; eexists; (split; [exact H|now left]).
Qed.
Lemma existsb_same {A} (f : A -> bool) l l' : (forall x, In x l <-> In x l') -> existsb f l = existsb f l'.
Proof.
  intro H. apply Bool.eq_true_iff_eq. rewrite !existsb_exists. split; intros (x & I & F); exists x; (split; [|exact F]); now apply H.
Qed.
Lemma forallb_same {A} (f : A -> bool) l l' : (forall x, In x l <-> In x l') -> forallb f l = forallb f l'.
Proof.
  intro H. apply Bool.eq_true_iff_eq. rewrite !forallb_forall. split; intros F x I; apply F; now apply H.
Qed.
Lemma items_nil l : items_of l = [] -> l = [].
Proof. intro H. destruct l as [|x l]; [easy|]. exfalso. apply (in_nil (a := x)). rewrite <- H. apply items_in. now left. Qed.

Lemma compiles_fold f l e : (forall a b, compiles (f a b) = compiles a && compiles b) ->
  compiles (fold_left f l e) = compiles e && forallb compiles l.
Proof.
  intro H. revert e. induction l as [|x l IH]; intro e; cbn [fold_left forallb]; [now rewrite Bool.andb_true_r|].
  now rewrite IH, H, Bool.andb_assoc.
Qed.
Lemma compiles_joinl f l : (forall a b, compiles (f a b) = compiles a && compiles b) -> l <> [] ->
  compiles (joinl f l) = forallb compiles l.
Proof. intros H N. destruct l; [easy|]. now apply compiles_fold. Qed.
Lemma forallb_concat {A} (f : A -> bool) l : forallb f (List.concat l) = forallb (forallb f) l.
Proof. induction l as [|x l IH]; [reflexivity|]. cbn [List.concat forallb]. now rewrite forallb_app, IH. Qed.
Lemma forallb_map {A B} (f : B -> bool) (g : A -> B) l : forallb f (List.map g l) = forallb (fun x => f (g x)) l.
Proof. induction l as [|x l IH]; [reflexivity|]. cbn [List.map forallb]. now rewrite IH. Qed.
Lemma forallb_eq {A} (f g : A -> bool) l : (forall x, In x l -> f x = g x) -> forallb f l = forallb g l.
Proof.
  induction l as [|x l IH]; intro H; [reflexivity|]. cbn [forallb]. rewrite (H x (or_introl eq_refl)). f_equal. apply IH.
  intros y I. apply H. now right.
Qed.
Lemma item_conj_ne neg ex it : item_conj neg ex it <> [].
Proof. destruct it; discriminate. Qed.

Lemma rel_compiles r es : rel_conjs r = Some es -> forallb compiles es = code_relation_fits r.
Proof.
  unfold rel_conjs. intro C. destruct (is_within (rel_op r)) eqn:W.
  - rewrite first_range_nth in C. unfold code_relation_fits.
    destruct (first_range (rel_list r)) as [x|]; [|discriminate]. injection C as <-. rewrite (within_compiles r x W).
    now destruct (rel_op r).
  - assert (E : code_relation_fits r = forallb (code_item_fits (rel_expr r)) (items_of (rel_list r))).
    { rewrite (forallb_same _ _ _ (items_in (rel_list r))). unfold code_relation_fits. now destruct (rel_op r). }
    rewrite E. rewrite (forallb_eq _ (fun it => forallb compiles (item_conj (negated (rel_op r)) (rel_expr r) it)) _ (fun it _ => eq_sym (item_compiles_eq _ _ it))).
    rewrite !item_conjs_items in C. destruct (negated (rel_op r)).
    + assert (K : es = List.concat (List.map (item_conj true (rel_expr r)) (items_of (rel_list r)))).
      { destruct (List.map _ _); [discriminate|]. now injection C as <-. }
      now rewrite K, forallb_concat, forallb_map.
    + rewrite <- (forallb_map (forallb compiles) (item_conj false (rel_expr r))).
      assert (NI : forall c, In c (List.map (item_conj false (rel_expr r)) (items_of (rel_list r))) -> c <> []).
      { intros c H. apply in_map_iff in H as (x & <- & _). apply item_conj_ne. }
      destruct (List.map (item_conj false (rel_expr r)) (items_of (rel_list r))) as [|c [|c2 cs]]; [discriminate| |].
      * injection C as <-. cbn [forallb]. now rewrite Bool.andb_true_r.
      * assert (K : es = [joinl BOr (List.map (joinl BAnd) (c :: c2 :: cs))]) by now injection C as <-.
        rewrite K. cbn [forallb]. rewrite Bool.andb_true_r.
        rewrite (compiles_joinl BOr (List.map (joinl BAnd) (c :: c2 :: cs))) by easy.
        rewrite forallb_map. rewrite (forallb_eq _ (forallb compiles) (c :: c2 :: cs)); [reflexivity|].
        intros x I. apply compiles_joinl; [reflexivity|now apply NI].
Qed.
Lemma code_rel_value r po : rel_nonempty r -> code_relation_fits r = true -> rel_value r po = Ok (code_relation po r).
Proof.
  intros NE F. destruct (rel_conjs_some r NE) as (es & C & _). rewrite (proj2 (rel_value_conjs r es po C)).
  unfold rel_conjs in C. destruct (is_within (rel_op r)) eqn:W.
  - rewrite first_range_nth in C. unfold code_relation_fits in F. unfold code_relation.
    destruct (first_range (rel_list r)) as [x|]; [|discriminate]. injection C as <-.
    rewrite (within_eval r x po W); [|now destruct (rel_op r)]. now destruct (rel_op r).
  - assert (IT : forall it, In it (items_of (rel_list r)) -> code_item_fits (rel_expr r) it = true).
    { apply forallb_forall. rewrite (forallb_same _ _ _ (items_in (rel_list r))). unfold code_relation_fits in F. now destruct (rel_op r). }
    rewrite !item_conjs_items in C. destruct (negated (rel_op r)) eqn:NG.
    + assert (K : es = List.concat (List.map (item_conj true (rel_expr r)) (items_of (rel_list r)))).
      { destruct (List.map _ _); [discriminate|]. now injection C as <-. }
      assert (V : code_relation po r = negb (existsb (fun it => negb (code_not_item (rel_expr r) po it)) (items_of (rel_list r)))).
      { transitivity (forallb (code_not_item (rel_expr r) po) (rel_list r)); [unfold code_relation; destruct (rel_op r); easy|].
        rewrite <- (forallb_same _ _ _ (items_in (rel_list r))). clear. induction (items_of (rel_list r)) as [|x l IH]; [reflexivity|].
        cbn [forallb existsb]. now rewrite Bool.negb_orb, Bool.negb_involutive, IH. }
      rewrite V, K. unfold evals. rewrite concat_map, map_map.
      apply (res_and_all_neg (fun it => negb (code_not_item (rel_expr r) po it)) (fun it => List.map (fun e => eval e po) (item_conj true (rel_expr r) it))).
      intros it I. rewrite Bool.negb_involutive. exact (item_eval true (rel_expr r) it po (IT it I)).
    + assert (V : code_relation po r = existsb (code_item (rel_expr r) po) (items_of (rel_list r))).
      { rewrite (existsb_same _ _ _ (items_in (rel_list r))). unfold code_relation. destruct (rel_op r); easy. }
      rewrite V. destruct (items_of (rel_list r)) as [|i1 [|i2 l]] eqn:E; [discriminate| |].
      * assert (K : es = item_conj false (rel_expr r) i1) by now injection C as <-. rewrite K.
        rewrite (item_eval false (rel_expr r) i1 po) by (apply IT; now left). cbn [existsb]. now rewrite Bool.orb_false_r.
      * assert (K : es = [joinl BOr (List.map (joinl BAnd) (List.map (item_conj false (rel_expr r)) (i1 :: i2 :: l)))]) by now injection C as <-.
        rewrite K. unfold evals. 
        match goal with |- res_and (List.map ?f [?x]) = _ => change (List.map f [x]) with [f x] end. rewrite res_and_single.
        rewrite (eval_join_or po (List.map (joinl BAnd) (List.map (item_conj false (rel_expr r)) (i1 :: i2 :: l)))) by easy.
        unfold evals. rewrite !map_map. apply res_or_all. intros it I. rewrite eval_join_and by apply item_conj_ne.
        exact (item_eval false (rel_expr r) it po (IT it I)).
Qed.

(** ** Conditions *)
Lemma and_compiles a e : and_expr a = Some e -> compiles e = forallb code_relation_fits a.
Proof.
  unfold and_expr. destruct (opt_concat (List.map rel_conjs a)) as [[|e0 es]|] eqn:C; try discriminate.
  intro H. assert (K : e = joinl BAnd (e0 :: es)) by now injection H as <-. rewrite K, compiles_joinl by easy. clear H K. revert C. generalize (e0 :: es). clear.
  induction a as [|r a IH]; cbn [List.map opt_concat]; intros l H.
  - now injection H as <-.
  - destruct (rel_conjs r) as [cr|] eqn:C; [|discriminate].
    destruct (opt_concat (List.map rel_conjs a)) as [ca|]; [|discriminate]. injection H as <-.
    now rewrite forallb_app, (IH ca eq_refl), (rel_compiles r cr C).
Qed.
Lemma cond_compiles c e : cond_expr c = Some e -> compiles e = code_fits c.
Proof.
  unfold cond_expr. destruct (map_opt and_expr c) as [[|e0 es]|] eqn:C; try discriminate.
  intro H. assert (K : e = joinl BOr (e0 :: es)) by now injection H as <-. rewrite K, compiles_joinl by easy. clear H K. revert C. generalize (e0 :: es). unfold code_fits. clear.
  induction c as [|a c IH]; cbn [map_opt]; intros l H.
  - now injection H as <-.
  - destruct (and_expr a) as [ea|] eqn:E; [|discriminate].
    destruct (map_opt and_expr c) as [ec|]; [|discriminate]. injection H as <-. cbn [forallb].
    now rewrite (IH ec eq_refl), (and_compiles a ea E).
Qed.
Lemma cond_value c po : Forall (Forall rel_nonempty) c -> code_fits c = true ->
  res_or (List.map (fun a => res_and (List.map (fun r => rel_value r po) a)) c) = Ok (code_condition c po).
Proof.
  intros N F. unfold code_fits in F. rewrite forallb_forall in F. rewrite Forall_forall in N.
  apply (res_or_all (forallb (code_relation po))). intros a I. specialize (N a I). specialize (F a I).
  rewrite Forall_forall in N. rewrite forallb_forall in F. apply (res_and_all (code_relation po)). intros r J.
  apply code_rel_value; auto.
Qed.

(** ** Conditions with an empty list: what is generated is no expression *)
Lemma map_opt_none {A B} (f : A -> option B) l x : In x l -> f x = None -> map_opt f l = None.
Proof.
  induction l as [|y l IH]; [easy|]. intros [->|I] H; cbn [map_opt]; [now rewrite H|]. rewrite (IH I H). now destruct (f y).
Qed.
Lemma read_gap k ps : Forall (free (bs "&&")) ps -> Forall (free (bs "||")) ps -> In [] ps -> read_expr k (sep_by [P "&&"] ps) = None.
Proof.
  intros F1 F2 I. destruct k as [|k]; [reflexivity|]. rewrite read_expr_S.
  rewrite (split_free (bs "||")) by (apply free_sep_by; [repeat constructor|assumption]).
  cbn [map_opt]. unfold read_and. rewrite split_sep_by; [|intros ->; easy|assumption].
  now rewrite (map_opt_none (read_unary k) ps [] I).
Qed.
Lemma read_par_gap k ts : (forall k, read_expr k ts = None) -> read_and k [Par ts] = None.
Proof.
  intro H. unfold read_and. rewrite split_free by repeat constructor. cbn [map_opt].
  assert (C : read_contains [TGroup DParen ts] = None).
  { unfold read_contains. destruct ts as [|[] [|[] [|[] [|]]]]; reflexivity. }
  unfold read_unary, read_primary, Par. rewrite C, H. unfold read_cmp. reflexivity.
Qed.
Lemma lacks_range_iff r : lacks_range r = true <-> is_within (rel_op r) = true /\ ranges_of (rel_list r) = [].
Proof.
  assert (K : first_range (rel_list r) = None <-> ranges_of (rel_list r) = []).
  { rewrite <- first_range_nth. now destruct (ranges_of (rel_list r)). }
  unfold lacks_range, is_within. destruct (rel_op r), (first_range (rel_list r)); intuition discriminate.
Qed.
Definition gap (r : relation) : Prop := is_within (rel_op r) = false /\ rel_list r = [].
Lemma rel_free r : lacks_range r = false ->
  exists ps, create_relation r = Ok (sep_by [P "&&"] ps) /\ ps <> [] /\
    Forall (free (bs "&&")) ps /\ Forall (free (bs "||")) ps /\ (gap r -> In [] ps).
Proof.
  intro L. assert (D : gap r \/ rel_nonempty r).
  { unfold gap, rel_nonempty. destruct (is_within (rel_op r)) eqn:W.
    - right. intro E. enough (lacks_range r = true) by congruence. now apply lacks_range_iff.
    - destruct (rel_list r); [now left|now right]. }
  destruct D as [[W E]|NE].
  - exists [[]]. split; [|split; [easy|split; [repeat constructor|split; [repeat constructor|now left]]]].
    rewrite create_relation_tokens. unfold rel_tokens. rewrite W. unfold item_pieces. rewrite E. now destruct (negated (rel_op r)).
  - destruct (rel_conjs_some r NE) as (es & C & _). destruct (rel_pieces_ok r es C) as (ps & G & N & F).
    exists ps. split; [exact G|]. split; [exact N|].
    split; [clear -F; induction F as [|? ? ? ? (A & _) ? ?]; constructor; assumption|].
    split; [clear -F; induction F as [|? ? ? ? (_ & A & _) ? ?]; constructor; assumption|].
    intros [W E]. unfold rel_nonempty in NE. now rewrite W, E in NE.
Qed.
Lemma and_free a : existsb lacks_range a = false ->
  exists ps, create_and_condition a = Ok [Par (sep_by [P "&&"] ps)] /\
    Forall (free (bs "&&")) ps /\ Forall (free (bs "||")) ps /\ (a = [] \/ (exists r, In r a /\ gap r) -> In [] ps).
Proof.
  intro L. destruct a as [|r0 a0] eqn:EA.
  { exists [[]]. split; [reflexivity|]. repeat split; repeat constructor. }
  rewrite <- EA in *. assert (NA : a <> []) by now rewrite EA. clear EA r0 a0.
  assert (K : exists v pss, map_res create_relation a = Ok v /\ v = List.map (sep_by [P "&&"]) pss /\
    (a <> [] -> pss <> []) /\ Forall (fun ps => ps <> []) pss /\ Forall (Forall (free (bs "&&"))) pss /\ Forall (Forall (free (bs "||"))) pss /\
    ((exists r, In r a /\ gap r) -> In [] (List.concat pss))).
  { clear NA. induction a as [|r a IH].
    - exists [], []. repeat split; try constructor; try easy. now intros (r & [] & _).
    - cbn [existsb] in L. apply Bool.orb_false_elim in L as [L1 L2].
      destruct (rel_free r L1) as (ps & E & N & F1 & F2 & G). destruct (IH L2) as (v & pss & E2 & V & _ & NN & G1 & G2 & H).
      cbn [map_res]. rewrite E. cbn [rbind]. rewrite E2. cbn [rbind]. exists (sep_by [P "&&"] ps :: v), (ps :: pss).
      split; [reflexivity|]. split; [now rewrite V|]. split; [easy|]. split; [now constructor|]. split; [now constructor|]. split; [now constructor|].
      intros (x & [<-|I] & X); cbn [List.concat]; apply in_or_app; [left; auto|right; eauto]. }
  destruct K as (v & pss & E & V & N & NN & F1 & F2 & G). exists (List.concat pss).
  unfold create_and_condition. rewrite E. cbn [rbind]. rewrite V, sep_by_concat by assumption. split; [reflexivity|].
  split; [clear -F1; induction F1; cbn [List.concat]; [constructor|now apply Forall_app]|].
  split; [clear -F2; induction F2; cbn [List.concat]; [constructor|now apply Forall_app]|].
  intros [X|X]; [now apply NA in X|auto].
Qed.
(** no expression is read when some list is empty *)
Lemma gen_no_lack c : lacks_ranges c = false -> exists ts, gen_pr c = Ok ts /\ (~ no_gaps c -> read_bexpr ts = None).
Proof.
  intro L.
  assert (K : exists v, map_res create_and_condition c = Ok v /\ Forall (free (bs "||")) v /\
    ((exists a, In a c /\ (a = [] \/ exists r, In r a /\ gap r)) -> exists t, In t v /\ forall k, read_and k t = None)).
  { unfold lacks_ranges in L. induction c as [|a c IH].
    - exists []. split; [reflexivity|]. split; [constructor|]. now intros (a & [] & _).
    - cbn [existsb] in L. apply Bool.orb_false_elim in L as [L1 L2].
      destruct (and_free a L1) as (ps & E & F1 & F2 & G). destruct (IH L2) as (v & E2 & V & H).
      cbn [map_res]. rewrite E. cbn [rbind]. rewrite E2. cbn [rbind]. eexists. split; [reflexivity|].
      split; [constructor; [repeat constructor|assumption]|].
      intros (x & [<-|I] & X).
      + eexists. split; [now left|]. intro k. apply read_par_gap. intro j. apply read_gap; auto.
      + destruct (H (ex_intro _ x (conj I X))) as (t & T & R). exists t. split; [now right|assumption]. }
  destruct K as (v & E & V & G). unfold gen_pr, create_condition. rewrite E. cbn [rbind]. eexists. split; [reflexivity|].
  intro NG. unfold read_bexpr. rewrite read_expr_S.
  destruct c as [|a0 c0] eqn:EC; [cbn in E; injection E as <-; reflexivity|]. rewrite <- EC in *.
  assert (NV : v <> []). { intros ->. rewrite EC in E. cbn [map_res] in E. destruct (create_and_condition a0); try discriminate. cbn [rbind] in E. destruct (map_res create_and_condition c0); discriminate. }
  rewrite split_sep_by by assumption.
  assert (X : exists a, In a c /\ (a = [] \/ exists r, In r a /\ gap r)).
  { destruct (Exists_dec (fun a => a = [] \/ exists r, In r a /\ gap r) c) as [X|X].
    - intro a. destruct a as [|r a]; [left; now left|]. destruct (Exists_dec gap (r :: a)) as [Y|Y].
      + intro x. unfold gap. destruct (is_within (rel_op x)); [right; now intros []|]. destruct (rel_list x); [now left|right; now intros []].
      + left. right. apply Exists_exists in Y. exact Y.
      + right. intros [Z|Z]; [easy|]. apply Y. now apply Exists_exists.
    - now apply Exists_exists in X.
    - exfalso. apply NG. split; [now rewrite EC|]. apply Forall_forall. intros a I. split.
      + intro Z. apply X. apply Exists_exists. exists a. auto.
      + apply Forall_forall. intros r J Z. destruct (is_within (rel_op r)) eqn:W.
        * assert (Q : lacks_range r = true) by (apply lacks_range_iff; split; [assumption|now rewrite Z]).
          unfold lacks_ranges in L. rewrite (proj2 (existsb_exists _ c)) in L; [discriminate|]. exists a. split; [assumption|].
          apply existsb_exists. eauto.
        * apply X. apply Exists_exists. exists a. split; [assumption|]. right. exists r. split; [assumption|]. now split. }
  destruct (G X) as (t & T & R). now rewrite (map_opt_none _ v t T (R _)).
Qed.
Lemma gen_lack c : lacks_ranges c = true -> gen_pr c = Panic "index out of bounds".
Proof.
  intro L. assert (R : forall r, lacks_range r = true -> create_relation r = Panic "index out of bounds").
  { intros r H. apply lacks_range_iff in H as [W E]. rewrite create_relation_tokens. unfold rel_tokens. now rewrite W, E. }
  assert (A : forall a, existsb lacks_range a = true -> create_and_condition a = Panic "index out of bounds").
  { intros a H. unfold create_and_condition. enough (X : map_res create_relation a = Panic "index out of bounds") by now rewrite X.
    induction a as [|r a IH]; [discriminate|]. cbn [existsb] in H. cbn [map_res]. destruct (lacks_range r) eqn:Q; [now rewrite (R r Q)|].
    destruct (rel_free r Q) as (ps & -> & _). cbn [rbind]. now rewrite (IH H). }
  unfold gen_pr, create_condition. enough (X : map_res create_and_condition c = Panic "index out of bounds") by now rewrite X.
  unfold lacks_ranges in L. induction c as [|a c IH]; [discriminate|]. cbn [existsb] in L. cbn [map_res].
  destruct (existsb lacks_range a) eqn:Q; [now rewrite (A a Q)|].
  destruct (and_free a Q) as (ps & -> & _). cbn [rbind]. now rewrite (IH L).
Qed.

(** ** All together *)
Lemma nonempty_of c : no_gaps c -> lacks_ranges c = false -> cond_nonempty c.
Proof.
  intros [N F] L. split; [assumption|]. apply Forall_forall. intros a I. rewrite Forall_forall in F. destruct (F a I) as [NA FA].
  split; [assumption|]. apply Forall_forall. intros r J. rewrite Forall_forall in FA. unfold rel_nonempty.
  destruct (is_within (rel_op r)) eqn:W; [|now apply FA]. intro Z.
  assert (Q : lacks_range r = true) by now apply lacks_range_iff.
  unfold lacks_ranges in L. rewrite (proj2 (existsb_exists _ c)) in L; [discriminate|]. exists a. split; [assumption|]. apply existsb_exists. eauto.
Qed.
Lemma C91_lemma c : no_gaps c -> lacks_ranges c = false ->
  exists ts e, gen_pr c = Ok ts /\ read_bexpr ts = Some e /\ compiles e = code_fits c /\
    (code_fits c = true -> forall po, eval e po = Ok (code_condition c po)).
Proof.
  intros NG L. pose proof (nonempty_of c NG L) as N. destruct (cond_expr_some c N) as [e E]. destruct (cond_expr_ok c e E) as (ts & G & R).
  exists ts, e. split; [assumption|]. split; [assumption|]. split; [now apply cond_compiles|].
  intros F po. rewrite (cond_expr_value c e po E). apply cond_value; [|assumption].
  destruct N as [_ N]. rewrite Forall_forall in *. intros a I. now apply N.
Qed.
