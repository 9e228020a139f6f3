(** * Meaning of the generated conditions *)
From Coq Require Import Lia Floats.SpecFloat.
From Verif Require Import Base F64 Operands Ast Tokens GenPr RustExpr Spec DigitFacts GenFacts.
Open Scope N_scope.

(** ** Short-circuit conjunction and disjunction of results *)
Fixpoint res_and (l : list (res bool)) : res bool :=
  match l with [] => Ok true | x :: r => let? v := x in if v : bool then res_and r else Ok false end.
Fixpoint res_or (l : list (res bool)) : res bool :=
  match l with [] => Ok false | x :: r => let? v := x in if v : bool then Ok true else res_or r end.

Definition evals (po : operands) (l : list bexpr) : list (res bool) := List.map (fun e => eval e po) l.

Lemma res_and_app a b :
  res_and (a ++ b) = let? v := res_and a in if v : bool then res_and b else Ok false.
Proof.
  induction a as [|x a IH]; [cbn; now destruct (res_and b)|]. cbn [app res_and].
  destruct x as [[]| |]; cbn; auto.
Qed.
Lemma res_and_single x : res_and [x] = x.
Proof. destruct x as [[]| |]; reflexivity. Qed.
Lemma res_or_single x : res_or [x] = x.
Proof. destruct x as [[]| |]; reflexivity. Qed.

Lemma eval_fold_and po l e : eval (fold_left BAnd l e) po = res_and (eval e po :: evals po l).
Proof.
  revert e. induction l as [|x l IH]; intro e; cbn [fold_left].
  - cbn [evals List.map]. now rewrite res_and_single.
  - rewrite IH. cbn [evals List.map res_and eval].
    destruct (eval e po) as [[]| |]; cbn; try reflexivity.
Qed.
Lemma eval_fold_or po l e : eval (fold_left BOr l e) po = res_or (eval e po :: evals po l).
Proof.
  revert e. induction l as [|x l IH]; intro e; cbn [fold_left].
  - cbn [evals List.map]. now rewrite res_or_single.
  - rewrite IH. cbn [evals List.map res_or eval].
    destruct (eval e po) as [[]| |]; cbn; try reflexivity.
Qed.
Lemma eval_join_and po l : l <> [] -> eval (joinl BAnd l) po = res_and (evals po l).
Proof. destruct l; [easy|]. intros _. apply eval_fold_and. Qed.
Lemma eval_join_or po l : l <> [] -> eval (joinl BOr l) po = res_or (evals po l).
Proof. destruct l; [easy|]. intros _. apply eval_fold_or. Qed.

(** ** C46: precedence.  The value of one relation is that of its own tokens. *)
Definition rel_value (r : relation) (po : operands) : res bool :=
  match create_relation r with
  | Ok ts => match read_bexpr ts with Some e => eval e po | None => Panic "no expression" end
  | Err e => Err e
  | Panic w => Panic w
  end.
Lemma rel_value_conjs r es po : rel_conjs r = Some es -> es <> [] /\ rel_value r po = res_and (evals po es).
Proof.
  intro C. destruct (rel_pieces_ok r es C) as (ps & E & N & F).
  assert (NE : es <> []) by (inversion F; subst; easy). split; [assumption|].
  unfold rel_value. rewrite E, (reads_bexpr _ _ (reads_and ps es N F)). now apply eval_join_and.
Qed.
Lemma and_expr_value a e po : and_expr a = Some e ->
  eval e po = res_and (List.map (fun r => rel_value r po) a).
Proof.
  unfold and_expr. destruct (opt_concat (List.map rel_conjs a)) as [[|e0 es]|] eqn:C; try discriminate.
  intro H. injection H as <-. rewrite eval_fold_and.
  change (eval e0 po :: evals po es) with (evals po (e0 :: es)).
  revert C. generalize (e0 :: es). clear. induction a as [|r a IH]; cbn [List.map opt_concat].
  - intros l H. now injection H as <-.
  - destruct (rel_conjs r) as [cr|] eqn:C; [|discriminate].
    destruct (opt_concat (List.map rel_conjs a)) as [ca|] eqn:CA; [|discriminate].
    intros l H. injection H as <-. unfold evals. rewrite map_app, res_and_app.
    fold (evals po cr). fold (evals po ca). rewrite (IH ca eq_refl). cbn [res_and].
    now rewrite (proj2 (rel_value_conjs r cr po C)).
Qed.
Lemma cond_expr_value c e po : cond_expr c = Some e ->
  eval e po = res_or (List.map (fun a => res_and (List.map (fun r => rel_value r po) a)) c).
Proof.
  unfold cond_expr. destruct (map_opt and_expr c) as [[|e0 es]|] eqn:C; try discriminate.
  intro H. injection H as <-. rewrite eval_fold_or.
  change (eval e0 po :: evals po es) with (evals po (e0 :: es)).
  revert C. generalize (e0 :: es). clear. induction c as [|a c IH]; cbn [List.map map_opt].
  - intros l H. now injection H as <-.
  - destruct (and_expr a) as [ea|] eqn:E; [|discriminate].
    destruct (map_opt and_expr c) as [ec|] eqn:CA; [|discriminate].
    intros l H. injection H as <-. cbn [evals List.map res_or]. fold (evals po ec).
    rewrite (IH ec eq_refl). now rewrite (and_expr_value a ea po E).
Qed.

(** well-formed lists: every [or]/[and] list non-empty, every relation has an
    item of the kind it needs *)
Definition rel_nonempty (r : relation) : Prop :=
  if is_within (rel_op r) then ranges_of (rel_list r) <> [] else rel_list r <> [].
Definition cond_nonempty (c : condition) : Prop :=
  c <> [] /\ Forall (fun a => a <> [] /\ Forall rel_nonempty a) c.
Lemma items_split (l : range_list) : l <> [] -> values_of l <> [] \/ ranges_of l <> [].
Proof. destruct l as [|[r|v] l]; [easy|right|left]; easy. Qed.
Lemma rel_conjs_some r : rel_nonempty r -> exists es, rel_conjs r = Some es /\ es <> [].
Proof.
  unfold rel_nonempty, rel_conjs. destruct (is_within (rel_op r)).
  - destruct (ranges_of (rel_list r)); [easy|]. intros _. eexists. split; [reflexivity|easy].
  - intro N. apply items_split in N.
    assert (L : forall neg, exists c cs, item_conjs neg r = c :: cs /\ c <> []).
    { intro neg. unfold item_conjs. destruct (values_of (rel_list r)) as [|v vs].
      - destruct N as [N|N]; [easy|]. destruct (ranges_of (rel_list r)) as [|x xs]; [easy|].
        eexists _, _. split; [reflexivity|easy].
      - eexists _, _. split; [reflexivity|easy]. }
    destruct (negated (rel_op r)).
    + destruct (L true) as (c & cs & -> & NE). eexists. split; [reflexivity|]. destruct c; easy.
    + destruct (L false) as (c & cs & -> & NE). destruct cs; eexists; (split; [reflexivity|easy]).
Qed.
Lemma and_expr_some a : a <> [] -> Forall rel_nonempty a -> exists e, and_expr a = Some e.
Proof.
  intros N F. unfold and_expr.
  assert (K : exists es, opt_concat (List.map rel_conjs a) = Some es /\ (a <> [] -> es <> [])).
  { clear N. induction F as [|r a R F IH]; [exists []; now split|].
    cbn [List.map opt_concat]. destruct (rel_conjs_some r R) as (es & -> & NE).
    destruct IH as (es' & -> & _). eexists. split; [reflexivity|]. intros _. destruct es; easy. }
  destruct K as (es & -> & NE). destruct es; [now specialize (NE N)|]. eauto.
Qed.
Lemma cond_expr_some c : cond_nonempty c -> exists e, cond_expr c = Some e.
Proof.
  intros [N F]. unfold cond_expr.
  assert (K : exists es, map_opt and_expr c = Some es /\ (c <> [] -> es <> [])).
  { clear N. induction F as [|a c [Na Fa] F IH]; [exists []; now split|].
    cbn [map_opt]. destruct (and_expr_some a Na Fa) as (e & ->). destruct IH as (es & -> & _).
    eexists. split; [reflexivity|easy]. }
  destruct K as (es & -> & NE). destruct es; [now specialize (NE N)|]. eauto.
Qed.
Lemma C46_lemma c : cond_nonempty c ->
  exists ts e, gen_pr c = Ok ts /\ read_bexpr ts = Some e /\
  forall po, eval e po = res_or (List.map (fun a => res_and (List.map (fun r => rel_value r po) a)) c).
Proof.
  intro N. destruct (cond_expr_some c N) as [e E]. destruct (cond_expr_ok c e E) as (ts & G & R).
  exists ts, e. split; [assumption|]. split; [assumption|]. intro po. now apply cond_expr_value.
Qed.

(** ** Operands that represent a decimal *)
Record represents (po : operands) (d : decimal) : Prop := {
  rp_i : op_i po = uts_i d;
  rp_v : op_v po = uts_v d;
  rp_w : op_w po = uts_w d;
  rp_f : op_f po = uts_f d;
  rp_t : op_t po = uts_t d;
  rp_eq : forall k, k < 2 ^ 53 -> SFeqb (op_n po) (f64_of_N k) = (uts_num d =? k * uts_den d);
  rp_ge : forall k, k < 2 ^ 53 -> SFleb (f64_of_N k) (op_n po) = (k * uts_den d <=? uts_num d);
  rp_le : forall k, k < 2 ^ 53 -> SFleb (op_n po) (f64_of_N k) = (uts_num d <=? k * uts_den d) }.

(** fraction digits are digits *)
Definition proper (d : decimal) : Prop := Forall (fun x => x < 10) (d_frac d).
Lemma frac_value_lt l : Forall (fun x => x < 10) l -> frac_value l < 10 ^ N.of_nat (List.length l).
Proof.
  induction 1 as [|x l H F IH]; [cbn; lia|]. cbn [frac_value List.length].
  rewrite Nat2N.inj_succ, N.pow_succ_r'. nia.
Qed.
Lemma den_pos d : 0 < uts_den d.
Proof. unfold uts_den. apply N.neq_0_lt_0, N.pow_nonzero. lia. Qed.
Lemma num_mod d : proper d -> uts_num d mod uts_den d = uts_f d.
Proof.
  intro P. pose proof (den_pos d) as D. unfold uts_num. rewrite N.add_comm, N.mod_add by lia.
  apply N.mod_small. apply frac_value_lt, P.
Qed.
Lemma strip_nil l : strip_trailing l = [] <-> Forall (fun x => x = 0) l.
Proof.
  induction l as [|x l IH]; cbn; [split; auto|].
  destruct (strip_trailing l) eqn:E.
  - assert (F : Forall (fun x => x = 0) l) by now apply IH.
    destruct (N.eqb_spec x 0) as [->|Hx]; split; auto; try easy. intro H. now inversion H.
  - split; [easy|]. intro H. inversion H; subst. assert (n :: l0 = []) by now apply IH. easy.
Qed.
Lemma frac_value_0 l : frac_value l = 0 <-> Forall (fun x => x = 0) l.
Proof.
  induction l as [|x l IH]; cbn; [split; auto|].
  assert (0 < 10 ^ N.of_nat (List.length l)) by (apply N.neq_0_lt_0, N.pow_nonzero; lia).
  split.
  - intro E. constructor; [nia|]. apply IH. nia.
  - intro F. inversion F; subst. assert (frac_value l = 0) by now apply IH. nia.
Qed.
Lemma uts_t_0 d : uts_t d = 0 <-> uts_f d = 0.
Proof.
  unfold uts_t, uts_f. rewrite frac_value_0, frac_value_0. rewrite <- !strip_nil.
  split; intro H.
  - apply strip_nil in H.
    destruct (strip_trailing (d_frac d)) eqn:E; [reflexivity|exfalso].
    (* a stripped list does not end with zero, so it is not all zeros *)
    assert (K : forall l, strip_trailing l <> [] -> ~ Forall (fun x => x = 0) (strip_trailing l)).
    { clear. induction l as [|x l IH]; cbn; [easy|].
      destruct (strip_trailing l) eqn:E.
      - destruct (N.eqb_spec x 0); [easy|]. intros _ F. now inversion F.
      - intros _ F. inversion F; subst. apply IH; [easy|assumption]. }
    apply (K (d_frac d)); rewrite E; [easy|]. exact H.
  - now rewrite H.
Qed.
Lemma uts_w_0 d : uts_w d = 0 <-> uts_f d = 0.
Proof.
  unfold uts_w, uts_f. rewrite frac_value_0, <- strip_nil.
  destruct (strip_trailing (d_frac d)); cbn; split; intros; try easy; lia.
Qed.
Lemma uts_v_0 d : uts_v d = 0 -> uts_f d = 0.
Proof. unfold uts_v, uts_f. destruct (d_frac d); cbn; [easy|lia]. Qed.

(** ** One item *)
Definition item_conj (neg : bool) (ex : expression) (it : range_list_item) : list bexpr :=
  match it with RValue k => value_conj neg ex k | RRange r => range_conj neg ex r end.

Definition item_supported (neg ai : bool) (ex : expression) (it : range_list_item) : bool :=
  match ex_modulus ex with Some m => (0 <? m) && (m <? 2 ^ 64) | None => true end &&
  match ex_operand ex, ex_modulus ex with
  | ON, None => value_below (2 ^ 53) it && (negb neg || ai || is_value it)
  | ON, Some _ => ai && value_below (2 ^ 64) it && is_value it
  | _, _ => value_below (2 ^ 64) it
  end.

Lemma below_u64_max k : k < 2 ^ 64 -> (k <=? u64_max) = true.
Proof. intro H. apply N.leb_le. change u64_max with (2 ^ 64 - 1). lia. Qed.
Lemma in_int (neg : bool) x po a (m : option N) it :
  is_float (match m with None => NField x | Some m => NMod x m end) = false ->
  int_field x po = Some a ->
  (match m with Some m => (0 <? m) && (m <? 2 ^ 64) | None => true end) = true ->
  value_below (2 ^ 64) it = true ->
  let nm := match m with None => NField x | Some m => NMod x m end in
  let v := match m with None => a | Some m => a mod m end in
  eval (match it with
        | RValue k => BCmpNL nm (if neg then CNe else CEq) (LInt k)
        | RRange r => let c := BContains (lower_val r) (upper_val r) nm in if neg then BNot c else c
        end) po = Ok (xorb neg (item_in (v, 1) it)).
Proof.
  intros NF IF M B nm v.
  assert (EI : eval_int nm po = Ok v).
  { subst nm v. destruct m as [m|]; cbn; rewrite IF; cbn; [|reflexivity].
    apply andb_prop in M as [M _]. destruct (N.eqb_spec m 0); [subst; discriminate|reflexivity]. }
  assert (FL : is_float nm = false) by exact NF.
  destruct it as [r|k]; cbn [value_below] in B.
  - apply andb_prop in B as [B1 B2]. apply N.ltb_lt in B1, B2.
    assert (E : eval (BContains (lower_val r) (upper_val r) nm) po = Ok (item_in (v, 1) (RRange r))).
    { cbn [eval lit_int]. rewrite (below_u64_max _ B1), (below_u64_max _ B2). cbn [rbind]. rewrite EI. cbn [rbind item_in].
      rewrite N.mod_1_r, !N.mul_1_r. reflexivity. }
    cbv zeta. destruct neg; [|rewrite E; now destruct (item_in _ _)].
    change (eval (BNot (BContains (lower_val r) (upper_val r) nm)) po)
      with (let? v := eval (BContains (lower_val r) (upper_val r) nm) po in Ok (negb v)).
    rewrite E. reflexivity.
  - apply N.ltb_lt in B. cbn [eval]. rewrite FL. cbn [lit_int]. rewrite (below_u64_max _ B). cbn [rbind]. rewrite EI. cbn [rbind item_in].
    rewrite N.mul_1_r. destruct neg; cbn [cmp_int xorb]; [reflexivity|now destruct (_ =? _)].
Qed.

Lemma item_ok neg ai ex it po d :
  represents po d -> proper d -> (ai = true -> uts_f d = 0) ->
  item_supported neg ai ex it = true ->
  res_and (evals po (item_conj neg ex it)) = Ok (xorb neg (item_in (uts_expr ex d) it)).
Proof.
  intros R PR AI S. unfold item_supported in S. apply andb_prop in S as [SM S].
  destruct ex as [o m]. cbn [ex_operand ex_modulus] in *.
  assert (General : o <> ON ->
    forall a, int_field o po = Some a -> uts_operand o d = (a, 1) ->
    value_below (2 ^ 64) it = true ->
    res_and (evals po (item_conj neg (mkExpr o m) it)) = Ok (xorb neg (item_in (uts_expr (mkExpr o m) d) it))).
  { intros NO a IF UO B.
    assert (H := in_int neg o po a m it). cbv zeta in H.
    assert (E : evals po (item_conj neg (mkExpr o m) it) =
      [eval (match it with
        | RValue k => BCmpNL (match m with None => NField o | Some m => NMod o m end) (if neg then CNe else CEq) (LInt k)
        | RRange r =>
            if neg then BNot (BContains (lower_val r) (upper_val r) (match m with None => NField o | Some m => NMod o m end))
            else BContains (lower_val r) (upper_val r) (match m with None => NField o | Some m => NMod o m end)
        end) po]).
    { destruct it as [r|k], o, m as [m|]; try easy. }
    rewrite E, res_and_single. etransitivity; [apply H; auto|].
    - destruct o, m; easy.
    - unfold uts_expr. cbn [ex_operand ex_modulus]. rewrite UO.
      destruct m as [m|]; [now rewrite N.mul_1_r|reflexivity]. }
  destruct o.
  2: { apply (General ltac:(easy) (op_i po)); auto. cbn. now rewrite (rp_i _ _ R). }
  2: { apply (General ltac:(easy) (op_v po)); auto. cbn. now rewrite (rp_v _ _ R). }
  2: { apply (General ltac:(easy) (op_w po)); auto. cbn. now rewrite (rp_w _ _ R). }
  2: { apply (General ltac:(easy) (op_f po)); auto. cbn. now rewrite (rp_f _ _ R). }
  2: { apply (General ltac:(easy) (op_t po)); auto. cbn. now rewrite (rp_t _ _ R). }
  clear General. pose proof (den_pos d) as DP. pose proof (num_mod d PR) as NM.
  destruct m as [m|].
  - (* n % m, values only, integers only *)
    apply andb_prop in S as [S SV]. apply andb_prop in S as [SA SB].
    specialize (AI SA). destruct it as [r|k]; [discriminate|].
    cbn [item_conj value_conj evals List.map]. rewrite res_and_single.
    assert (H := in_int neg OI po (op_i po) (Some m) (RValue k) eq_refl eq_refl SM SB). cbv zeta in H.
    cbn [value_conj value_num value_lit ex_operand ex_modulus] in *. rewrite H.
    f_equal. f_equal. unfold uts_expr. cbn [ex_operand ex_modulus uts_operand item_in].
    rewrite (rp_i _ _ R). unfold uts_num. rewrite AI, N.add_0_r.
    apply andb_prop in SM as [SM _]. apply N.ltb_lt in SM.
    rewrite N.mul_mod_distr_r by lia. unfold uts_i.
    destruct (N.eqb_spec (d_int d mod m) (k * 1)); destruct (N.eqb_spec (d_int d mod m * uts_den d) (k * uts_den d));
      try reflexivity; exfalso; nia.
  - apply andb_prop in S as [SB S]. destruct it as [r|k].
    + (* n = a..b *)
      cbn [value_below] in SB. apply andb_prop in SB as [B1 B2]. apply N.ltb_lt in B1, B2.
      assert (E : eval (BContains (lower_val r) (upper_val r) (NField OI)) po =
                  Ok ((lower_val r <=? uts_i d) && (uts_i d <=? upper_val r))).
      { cbn [eval lit_int]. rewrite (below_u64_max (lower_val r)), (below_u64_max (upper_val r)) by lia. cbn [rbind eval_int int_field unwrap].
        now rewrite (rp_i _ _ R). }
      assert (F : eval f_is_0 po = Ok (uts_f d =? 0)).
      { unfold f_is_0. cbn. now rewrite (rp_f _ _ R). }
      assert (V : item_in (uts_expr (mkExpr ON None) d) (RRange r) =
                  (uts_f d =? 0) && ((lower_val r <=? uts_i d) && (uts_i d <=? upper_val r))).
      { unfold uts_expr. cbn [ex_operand ex_modulus uts_operand item_in]. rewrite NM.
        destruct (N.eqb_spec (uts_f d) 0) as [Z|Z]; [|reflexivity]. cbn [andb].
        unfold uts_num. rewrite Z, N.add_0_r. unfold uts_i.
        f_equal.
        - destruct (N.leb_spec (lower_val r * uts_den d) (d_int d * uts_den d)), (N.leb_spec (lower_val r) (d_int d)); auto; nia.
        - destruct (N.leb_spec (d_int d * uts_den d) (upper_val r * uts_den d)), (N.leb_spec (d_int d) (upper_val r)); auto; nia. }
      rewrite V. unfold item_conj, range_conj. cbn [ex_operand ex_modulus range_num evals List.map].
      destruct neg.
      * cbn [negb orb is_value] in S. rewrite Bool.orb_false_r in S. specialize (AI S). rewrite F, AI.
        change (eval (BNot (BContains (lower_val r) (upper_val r) (NField OI))) po)
          with (let? v := eval (BContains (lower_val r) (upper_val r) (NField OI)) po in Ok (negb v)).
        rewrite E. cbn. now destruct (_ && _).
      * rewrite E, F. cbn. destruct (_ && _), (uts_f d =? 0); reflexivity.
    + (* n = k *)
      cbn [value_below] in SB. apply N.ltb_lt in SB.
      cbn [item_conj value_conj evals List.map value_num value_lit ex_operand ex_modulus].
      rewrite res_and_single. cbn [eval is_float lit_float rbind].
      unfold uts_expr. cbn [ex_operand ex_modulus uts_operand item_in].
      destruct neg; cbn [cmp_float xorb]; rewrite (rp_eq _ _ R k SB); [reflexivity|now destruct (_ =? _)].
Qed.

(** ** One relation *)
Lemma existsb_items (f : range_list_item -> bool) l :
  existsb f l = existsb (fun v => f (RValue v)) (values_of l) || existsb (fun r => f (RRange r)) (ranges_of l).
Proof.
  induction l as [|[r|v] l IH]; [reflexivity| |]; cbn; rewrite IH.
  - rewrite !Bool.orb_assoc. f_equal. apply Bool.orb_comm.
  - now rewrite Bool.orb_assoc.
Qed.
Lemma in_values l v : In v (values_of l) -> In (RValue v) l.
Proof. intro H. apply in_flat_map in H as ([r|x] & I & J); [easy|]. now destruct J as [->|[]]. Qed.
Lemma in_ranges l r : In r (ranges_of l) -> In (RRange r) l.
Proof. intro H. apply in_flat_map in H as ([x|x] & I & J); [|easy]. now destruct J as [->|[]]. Qed.

Lemma res_and_all_neg {A} (f : A -> bool) (g : A -> list (res bool)) l :
  (forall x, In x l -> res_and (g x) = Ok (negb (f x))) ->
  res_and (List.concat (List.map g l)) = Ok (negb (existsb f l)).
Proof.
  induction l as [|x l IH]; intro H; [reflexivity|]. cbn [List.map List.concat existsb].
  rewrite res_and_app, (H x (or_introl eq_refl)). cbn [rbind].
  destruct (f x); cbn; [reflexivity|]. apply IH. intros y Hy. apply H. now right.
Qed.
Lemma res_or_all {A} (f : A -> bool) (g : A -> res bool) l :
  (forall x, In x l -> g x = Ok (f x)) -> res_or (List.map g l) = Ok (existsb f l).
Proof.
  induction l as [|x l IH]; intro H; [reflexivity|]. cbn [List.map res_or existsb].
  rewrite (H x (or_introl eq_refl)). cbn [rbind].
  destruct (f x); cbn; [reflexivity|]. apply IH. intros y Hy. apply H. now right.
Qed.
Lemma res_and_all {A} (f : A -> bool) (g : A -> res bool) l :
  (forall x, In x l -> g x = Ok (f x)) -> res_and (List.map g l) = Ok (forallb f l).
Proof.
  induction l as [|x l IH]; intro H; [reflexivity|]. cbn [List.map res_and forallb].
  rewrite (H x (or_introl eq_refl)). cbn [rbind].
  destruct (f x); cbn; [|reflexivity]. apply IH. intros y Hy. apply H. now right.
Qed.
Lemma res_or_app a b :
  res_or (a ++ b) = let? v := res_or a in if v : bool then Ok true else res_or b.
Proof.
  induction a as [|x a IH]; [cbn; now destruct (res_or b)|]. cbn [app res_or].
  destruct x as [[]| |]; cbn; auto.
Qed.

Lemma supported_items ai r : supported_relation ai r = true ->
  is_within (rel_op r) = false /\ rel_list r <> [] /\
  forall it, In it (rel_list r) -> item_supported (negated (rel_op r)) ai (rel_expr r) it = true.
Proof.
  unfold supported_relation. intro S. apply andb_prop in S as [S S4]. apply andb_prop in S as [S S3].
  apply andb_prop in S as [S1 S2].
  split; [now destruct (rel_op r)|]. split; [now destruct (rel_list r)|].
  intros it I. unfold item_supported. rewrite S3. cbn [andb].
  assert (N : is_negated (rel_op r) = negated (rel_op r)) by (destruct (rel_op r); easy).
  rewrite <- N.
  destruct (ex_operand (rel_expr r)), (ex_modulus (rel_expr r));
    try (rewrite forallb_forall in S4; now apply S4).
  - apply andb_prop in S4 as [S4 S6]. apply andb_prop in S4 as [S4 S5].
    rewrite forallb_forall in S5, S6. now rewrite S4, (S5 _ I), (S6 _ I).
  - apply andb_prop in S4 as [S4 S5]. rewrite forallb_forall in S4. rewrite (S4 _ I). cbn [andb].
    apply orb_prop in S5 as [S5|S5].
    + now rewrite S5.
    + rewrite forallb_forall in S5. rewrite (S5 _ I). now rewrite Bool.orb_true_r.
Qed.

Lemma rel_ok ai r po d :
  represents po d -> proper d -> (ai = true -> uts_f d = 0) ->
  supported_relation ai r = true -> rel_value r po = Ok (uts_relation r d).
Proof.
  intros R PR AI S. destruct (supported_items ai r S) as (W & NE & IT).
  destruct (rel_conjs_some r) as (es & C & NC). { unfold rel_nonempty. now rewrite W. }
  rewrite (proj2 (rel_value_conjs r es po C)). unfold rel_conjs in C. rewrite W in C.
  set (x := uts_expr (rel_expr r) d).
  assert (OK : forall it, In it (rel_list r) ->
    res_and (evals po (item_conj (negated (rel_op r)) (rel_expr r) it)) = Ok (xorb (negated (rel_op r)) (item_in x it))).
  { intros it I. now apply (item_ok _ ai); auto. }
  destruct (negated (rel_op r)) eqn:NG.
  - assert (U : uts_relation r d = negb (existsb (item_in x) (rel_list r))).
    { unfold uts_relation. fold x. destruct (rel_op r); try discriminate; reflexivity. }
    rewrite U, existsb_items, Bool.negb_orb.
    assert (es = List.concat (item_conjs true r)).
    { destruct (item_conjs true r); [discriminate|]. now injection C as <-. }
    subst es. unfold item_conjs. rewrite concat_app. unfold evals. rewrite map_app, res_and_app.
    rewrite !concat_map, !map_map.
    rewrite (res_and_all_neg (fun v => item_in x (RValue v))); [|intros v Hv; apply (OK (RValue v)), in_values, Hv].
    cbn [rbind].
    rewrite (res_and_all_neg (fun r => item_in x (RRange r))); [|intros v Hv; apply (OK (RRange v)), in_ranges, Hv].
    now destruct (existsb (fun v => item_in x (RValue v)) (values_of (rel_list r))).
  - assert (U : uts_relation r d = existsb (item_in x) (rel_list r)).
    { unfold uts_relation. fold x. destruct (rel_op r); try discriminate; reflexivity. }
    rewrite U, existsb_items.
    assert (E : res_and (evals po es) = res_or (List.map (fun c => res_and (evals po c)) (item_conjs false r))).
    { assert (NI : Forall (fun c => c <> []) (item_conjs false r)).
      { unfold item_conjs. apply Forall_app. split; apply Forall_forall; intros c Hc; apply in_map_iff in Hc as (? & <- & _); easy. }
      destruct (item_conjs false r) as [|c [|c2 cs]]; [discriminate| |].
      - injection C as <-. cbn [List.map]. now rewrite res_or_single.
      - injection C as <-. cbn [evals List.map]. rewrite res_and_single.
        fold (joinl BOr (List.map (joinl BAnd) (c :: c2 :: cs))).
        change (fold_left BOr (List.map (joinl BAnd) cs) (BOr (joinl BAnd c) (joinl BAnd c2)))
          with (joinl BOr (List.map (joinl BAnd) (c :: c2 :: cs))).
        rewrite eval_join_or by easy. unfold evals. rewrite map_map.
        change (res_and (List.map (fun e => eval e po) c) :: res_and (List.map (fun e => eval e po) c2) ::
          List.map (fun c => res_and (List.map (fun e => eval e po) c)) cs)
          with (List.map (fun c => res_and (List.map (fun e => eval e po) c)) (c :: c2 :: cs)).
        f_equal. apply map_ext_in. intros a Ha. rewrite Forall_forall in NI.
        now rewrite eval_join_and by now apply NI. }
    rewrite E. unfold item_conjs. rewrite map_app, !map_map, res_or_app.
    rewrite (res_or_all (fun v => item_in x (RValue v))).
    2: { intros v Hv. specialize (OK (RValue v) (in_values _ _ Hv)). cbn [item_conj] in OK. rewrite OK. now destruct (item_in x (RValue v)). }
    cbn [rbind].
    rewrite (res_or_all (fun v => item_in x (RRange v))).
    2: { intros v Hv. specialize (OK (RRange v) (in_ranges _ _ Hv)). cbn [item_conj] in OK. rewrite OK. now destruct (item_in x (RRange v)). }
    now destruct (existsb (fun v => item_in x (RValue v)) (values_of (rel_list r))).
Qed.

(** ** Guards *)
Lemma guard_integral r d : proper d -> integer_guard r = true -> uts_relation r d = true -> uts_f d = 0.
Proof.
  intros PR G U. unfold integer_guard in G. destruct r as [[o m] op l].
  cbn [rel_op rel_expr rel_list ex_operand ex_modulus] in *.
  assert (m = None) by (destruct op, o, m; easy). subst m.
  assert (E : existsb (item_in (uts_operand o d)) l = true).
  { unfold uts_relation, uts_expr in U. cbn [rel_op rel_expr rel_list ex_operand ex_modulus] in U.
    destruct (uts_operand o d). destruct op; try discriminate; try exact U. }
  apply existsb_exists in E as (it & I & E).
  assert (Z : o <> ON -> o <> OI -> is_zero_list l = true -> fst (uts_operand o d) = 0).
  { intros N1 N2 Z. unfold is_zero_list in Z. destruct l as [|x0 l0]; [easy|].
    rewrite forallb_forall in Z. specialize (Z it I). destruct it as [r|v]; [easy|].
    destruct v; [|easy]. destruct o; try easy; cbn in E; apply N.eqb_eq in E; cbn; lia. }
  destruct op; try discriminate; destruct o; try discriminate;
    try (apply uts_v_0; apply Z; easy);
    try (apply uts_w_0; apply Z; easy);
    try (apply uts_t_0; apply Z; easy);
    try (apply Z; easy).
  all: pose proof (den_pos d) as DP; pose proof (num_mod d PR) as NM;
       cbn [uts_operand item_in] in E; destruct it as [r|k];
       [apply andb_prop in E as [E _]; apply andb_prop in E as [E _]; apply N.eqb_eq in E; congruence
       |apply N.eqb_eq in E; rewrite E in NM; rewrite N.mod_mul in NM by lia; congruence].
Qed.

Lemma guard_supported ai r : integer_guard r = true -> supported_relation ai r = true -> supported_relation false r = true.
Proof.
  unfold integer_guard, supported_relation.
  destruct (rel_op r), (ex_operand (rel_expr r)), (ex_modulus (rel_expr r)); cbn; intros; try easy;
    rewrite ?Bool.orb_true_r in *; auto.
Qed.

(** every conjunct of a supported relation type-checks *)
Lemma eval_total e po : compiles e = true -> exists b, eval e po = Ok b.
Proof.
  assert (NI : forall x, num_ok x = true -> is_float x = false -> exists v, eval_int x po = Ok v).
  { intros [o|o m]; destruct o; cbn; intros H1 H2; try discriminate; eauto;
      apply andb_prop in H1 as [H1 _]; destruct (m =? 0); try discriminate; cbn; eauto. }
  induction e as [x op l|l op x|lo hi x|e IH|a IHa b IHb|a IHa b IHb]; cbn [compiles eval]; intro H.
  - apply andb_prop in H as [H1 H2]. destruct l as [n|n]; cbn [lit_ok] in H2.
    + apply andb_prop in H2 as [H2 H3]. apply Bool.negb_true_iff in H2. rewrite H2. cbn [lit_int]. rewrite H3.
      destruct (NI x H1 H2) as [v ->]. cbn. eauto.
    + rewrite H2. cbn. eauto.
  - apply andb_prop in H as [H1 H2]. destruct l as [n|n]; cbn [lit_ok] in H2.
    + apply andb_prop in H2 as [H2 H3]. apply Bool.negb_true_iff in H2. rewrite H2. cbn [lit_int]. rewrite H3.
      destruct (NI x H1 H2) as [v ->]. cbn. eauto.
    + rewrite H2. cbn. eauto.
  - apply andb_prop in H as [H H4]. apply andb_prop in H as [H H3]. apply andb_prop in H as [H1 H2].
    apply Bool.negb_true_iff in H2. cbn [lit_int]. rewrite H3, H4. destruct (NI x H1 H2) as [v ->]. cbn. eauto.
  - destruct (IH H) as [v ->]. cbn. eauto.
  - apply andb_prop in H as [H1 H2]. destruct (IHa H1) as [[] ->]; cbn; eauto.
  - apply andb_prop in H as [H1 H2]. destruct (IHa H1) as [[] ->]; cbn; eauto.
Qed.
Lemma item_compiles neg ai ex it : item_supported neg ai ex it = true ->
  Forall (fun e => compiles e = true) (item_conj neg ex it).
Proof.
  unfold item_supported. intro S. apply andb_prop in S as [SM S]. destruct ex as [o m].
  cbn [ex_operand ex_modulus] in *.
  assert (B : value_below (2 ^ 64) it = true).
  { assert (L : value_below (2 ^ 53) it = true -> value_below (2 ^ 64) it = true).
    { destruct it as [r|v]; cbn [value_below].
      - intro H. apply andb_prop in H as [H1 H2]. apply N.ltb_lt in H1, H2.
        apply andb_true_intro. split; apply N.ltb_lt; lia.
      - intro H. apply N.ltb_lt in H. apply N.ltb_lt. lia. }
    destruct o, m; auto; [apply andb_prop in S as [S _]; now apply andb_prop in S as [_ S]|].
    apply andb_prop in S as [S _]. auto. }
  assert (M : match m with Some m => negb (m =? 0) && (m <=? u64_max) | None => true end = true).
  { destruct m as [m|]; [|reflexivity]. apply andb_prop in SM as [S1 S2]. apply N.ltb_lt in S1, S2.
    apply andb_true_intro. split; [apply Bool.negb_true_iff, N.eqb_neq; lia|apply below_u64_max; lia]. }
  destruct it as [r|k]; cbn [value_below] in B; cbn [item_conj].
  - apply andb_prop in B as [B1 B2]. apply N.ltb_lt in B1, B2.
    assert (L1 : (lower_val r <=? u64_max) = true) by (apply below_u64_max; lia).
    assert (L2 : (upper_val r <=? u64_max) = true) by (apply below_u64_max; lia).
    unfold range_conj. cbn [ex_operand ex_modulus].
    assert (X : compiles (BContains (lower_val r) (upper_val r) (range_num (mkExpr o m))) = true).
    { cbn [compiles]. rewrite L1, L2. unfold range_num. cbn [ex_operand ex_modulus].
      destruct o, m; cbn; try reflexivity; now rewrite M. }
    constructor; [destruct neg; exact X|]. destruct o, m; repeat constructor.
  - apply N.ltb_lt in B. assert (L : (k <=? u64_max) = true) by (apply below_u64_max; lia).
    unfold value_conj. constructor; [|constructor]. cbn [compiles].
    unfold value_num, value_lit. cbn [ex_operand ex_modulus].
    destruct o, m; cbn; rewrite ?L; try reflexivity; now rewrite M.
Qed.
Lemma compiles_join f l : (forall a b, compiles (f a b) = compiles a && compiles b) ->
  l <> [] -> Forall (fun e => compiles e = true) l -> compiles (joinl f l) = true.
Proof.
  intros H N F. destruct l as [|e l]; [easy|]. unfold joinl. inversion F as [|? ? F1 F2]; subst. clear F N.
  revert e F1. induction F2 as [|x l X F IH]; intros e F1; cbn [fold_left]; [assumption|].
  apply IH. now rewrite H, F1, X.
Qed.
Lemma rel_conjs_compile ai r es : supported_relation ai r = true -> rel_conjs r = Some es ->
  Forall (fun e => compiles e = true) es.
Proof.
  intros S C. destruct (supported_items ai r S) as (W & NE & IT). unfold rel_conjs in C. rewrite W in C.
  assert (A : Forall (Forall (fun e => compiles e = true)) (item_conjs (negated (rel_op r)) r)).
  { unfold item_conjs. apply Forall_app. split; apply Forall_forall; intros c Hc; apply in_map_iff in Hc as (x & <- & Hx).
    - exact (item_compiles _ ai _ (RValue x) (IT _ (in_values _ _ Hx))).
    - exact (item_compiles _ ai _ (RRange x) (IT _ (in_ranges _ _ Hx))). }
  assert (NI : forall neg, Forall (fun c => c <> []) (item_conjs neg r)).
  { intro neg. unfold item_conjs. apply Forall_app. split; apply Forall_forall; intros c Hc; apply in_map_iff in Hc as (? & <- & _); easy. }
  specialize (NI (negated (rel_op r))).
  destruct (negated (rel_op r)).
  - assert (es = List.concat (item_conjs true r)).
    { destruct (item_conjs true r); [discriminate|]. now injection C as <-. }
    subst es. clear - A. induction A; cbn [List.concat]; [constructor|]. now apply Forall_app.
  - destruct (item_conjs false r) as [|c [|c2 cs]]; [discriminate| |].
    + injection C as <-. now inversion A.
    + injection C as <-. constructor; [|constructor].
      apply (compiles_join BOr (List.map (joinl BAnd) (c :: c2 :: cs))); [reflexivity|easy|].
      apply Forall_forall. intros e He. apply in_map_iff in He as (x & <- & Hx).
      rewrite Forall_forall in A, NI. apply compiles_join; [reflexivity|now apply NI|now apply A].
Qed.
Lemma rel_total ai r po : supported_relation ai r = true -> exists b, rel_value r po = Ok b.
Proof.
  intro S. destruct (supported_items ai r S) as (W & NE & IT).
  destruct (rel_conjs_some r) as (es & C & NC). { unfold rel_nonempty. now rewrite W. }
  rewrite (proj2 (rel_value_conjs r es po C)).
  pose proof (rel_conjs_compile ai r es S C) as F. clear - F.
  induction F as [|e es E F IH]; [cbn; eauto|]. cbn [evals List.map res_and].
  destruct (eval_total e po E) as [[] ->]; cbn [rbind]; [exact IH|eauto].
Qed.

(** ** And-lists and conditions *)
Lemma res_and_false l x : Forall (fun r => exists b, r = Ok b) l -> In x l -> x = Ok false -> res_and l = Ok false.
Proof.
  induction 1 as [|r l [b ->] F IH]; intros I E; [easy|]. cbn [res_and rbind].
  destruct I as [<-|I]; [injection E as ->; reflexivity|]. destruct b; auto.
Qed.
Lemma and_ok ai a po d :
  represents po d -> proper d -> (ai = true -> uts_f d = 0) ->
  supported_and ai a = true -> res_and (List.map (fun r => rel_value r po) a) = Ok (uts_and a d).
Proof.
  intros R PR AI S. unfold supported_and in S. apply andb_prop in S as [_ S].
  unfold uts_and. rewrite forallb_forall in S.
  destruct (existsb integer_guard a) eqn:G.
  - destruct (uts_f d =? 0) eqn:F.
    + apply N.eqb_eq in F. apply res_and_all. intros r Hr.
      exact (rel_ok _ r po d R PR (fun _ => F) (S _ Hr)).
    + apply existsb_exists in G as (g & Ig & G).
      assert (UG : uts_relation g d = false).
      { destruct (uts_relation g d) eqn:U; [|reflexivity]. apply N.eqb_neq in F. exfalso. apply F.
        exact (guard_integral g d PR G U). }
      assert (FA : forallb (fun r => uts_relation r d) a = false).
      { destruct (forallb _ a) eqn:FA; [|reflexivity]. rewrite forallb_forall in FA. rewrite (FA _ Ig) in UG. easy. }
      rewrite FA. apply res_and_false with (x := rel_value g po).
      * apply Forall_forall. intros x Hx. apply in_map_iff in Hx as (r & <- & Hr). exact (rel_total _ r po (S _ Hr)).
      * now apply (in_map (fun r => rel_value r po)).
      * rewrite (rel_ok false g po d R PR); [now rewrite UG|easy|]. eapply guard_supported; [exact G|]. apply S, Ig.
  - apply res_and_all. intros r Hr. specialize (S _ Hr).
    rewrite Bool.orb_false_r in S. exact (rel_ok ai r po d R PR AI S).
Qed.
Lemma supported_nonempty ai c : supported ai c = true -> cond_nonempty c.
Proof.
  unfold supported. intro S. apply andb_prop in S as [S1 S2]. split; [now destruct c|].
  rewrite forallb_forall in S2. apply Forall_forall. intros a Ha. specialize (S2 a Ha).
  unfold supported_and in S2. apply andb_prop in S2 as [S2 S3]. split; [now destruct a|].
  rewrite forallb_forall in S3. apply Forall_forall. intros r Hr. specialize (S3 r Hr).
  destruct (supported_items _ r S3) as (W & NE & _). unfold rel_nonempty. now rewrite W.
Qed.
Lemma cond_ok ai c po d :
  represents po d -> proper d -> (ai = true -> uts_f d = 0) -> supported ai c = true ->
  exists ts e, gen_pr c = Ok ts /\ read_bexpr ts = Some e /\ eval e po = Ok (uts_condition c d).
Proof.
  intros R PR AI S. destruct (C46_lemma c (supported_nonempty ai c S)) as (ts & e & G & RB & E).
  exists ts, e. split; [assumption|]. split; [assumption|]. rewrite E.
  unfold supported in S. apply andb_prop in S as [_ S]. rewrite forallb_forall in S.
  apply res_or_all. intros a Ha. exact (and_ok ai a po d R PR AI (S a Ha)).
Qed.
