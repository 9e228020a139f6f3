(** * C107: the CLDR 33 fixture against the shipped CLDR 37 tables *)
From Coq Require Import Lia Sorted Floats.SpecFloat.
From Verif Require Import Base F64 Operands Ast LangId Tokens GenRs Json RustExpr PluralRules Tables Cldr Spec FileSpec LangIdFacts ApiProps GenMeaning
  Conformance Exclusive Fixtures TextFix33 Order.
Open Scope N_scope.

(** the tables of make_pluralrules/tests/fixtures/cldr_pluralrules_33.rs *)
Definition found (o : option table) : bool := match o with Some _ => true | None => false end.
Definition table_of (o : option table) : table := match o with Some tbl => tbl | None => [] end.
Lemma found_table o : found o = true -> o = Some (table_of o).
Proof. destruct o; [reflexivity|discriminate]. Qed.
Definition prs33 (t : pr_type) : table := table_of (output_table t (trim fixture33_rs)).
Lemma found33 t : found (output_table t (trim fixture33_rs)) = true.
Proof. destruct t; vm_compute; reflexivity. Qed.
Lemma prs33_read t : output_table t (trim fixture33_rs) = Some (prs33 t).
Proof. exact (found_table _ (found33 t)). Qed.

(** ** Equal functions *)
Definition num_eqb (x y : num) : bool :=
  match x, y with
  | NField a, NField b => operand_eqb a b
  | NMod a m, NMod b k => operand_eqb a b && (m =? k)
  | _, _ => false
  end.
Definition lit_eqb (x y : lit) : bool :=
  match x, y with LInt a, LInt b => a =? b | LFloat a, LFloat b => a =? b | _, _ => false end.
Definition cmpop_eqb (x y : cmpop) : bool :=
  match x, y with CEq, CEq => true | CNe, CNe => true | CLe, CLe => true | CGt, CGt => true | _, _ => false end.
Fixpoint bexpr_eqb (a b : bexpr) : bool :=
  match a, b with
  | BCmpNL x o l, BCmpNL x' o' l' => num_eqb x x' && cmpop_eqb o o' && lit_eqb l l'
  | BCmpLN l o x, BCmpLN l' o' x' => num_eqb x x' && cmpop_eqb o o' && lit_eqb l l'
  | BContains lo hi x, BContains lo' hi' x' => (lo =? lo') && (hi =? hi') && num_eqb x x'
  | BNot a, BNot b => bexpr_eqb a b
  | BAnd a b, BAnd a' b' => bexpr_eqb a a' && bexpr_eqb b b'
  | BOr a b, BOr a' b' => bexpr_eqb a a' && bexpr_eqb b b'
  | _, _ => false
  end.
Fixpoint arms_eqb (a b : list (bexpr * category)) : bool :=
  match a, b with
  | [], [] => true
  | (e, c) :: a, (e', c') :: b => bexpr_eqb e e' && cat_eqb c c' && arms_eqb a b
  | _, _ => false
  end.
Definition body_eqb (a b : body) : bool := arms_eqb (b_arms a) (b_arms b) && cat_eqb (b_else a) (b_else b).
Ltac split_and := repeat match goal with H : _ && _ = true |- _ => apply andb_prop in H as [? ?] end.
Lemma num_eqb_eq x y : num_eqb x y = true -> x = y.
Proof.
  destruct x, y; cbn; intro H; try discriminate; split_and; repeat match goal with H : operand_eqb _ _ = true |- _ => apply operand_eqb_eq in H | H : (_ =? _) = true |- _ => apply N.eqb_eq in H end; now subst.
Qed.
Lemma lit_eqb_eq x y : lit_eqb x y = true -> x = y.
Proof. destruct x, y; cbn; intro H; try discriminate; apply N.eqb_eq in H; now subst. Qed.
Lemma bexpr_eqb_eq a b : bexpr_eqb a b = true -> a = b.
Proof.
  revert b. induction a; intros []; cbn [bexpr_eqb]; intro H; try discriminate; split_and;
    repeat match goal with
      | H : num_eqb _ _ = true |- _ => apply num_eqb_eq in H
      | H : lit_eqb _ _ = true |- _ => apply lit_eqb_eq in H
      | H : (_ =? _) = true |- _ => apply N.eqb_eq in H
      | H : cmpop_eqb ?x ?y = true |- _ => assert (x = y) by (destruct x, y; easy); clear H
      | IH : forall b, bexpr_eqb ?a b = true -> _, H : bexpr_eqb ?a _ = true |- _ => apply IH in H
      end; now subst.
Qed.
Lemma arms_eqb_eq a b : arms_eqb a b = true -> a = b.
Proof.
  revert b. induction a as [|[e c] a IH]; intros [|[e' c'] b] H; try discriminate; [reflexivity|]. cbn [arms_eqb] in H. split_and.
  f_equal; [f_equal; [now apply bexpr_eqb_eq|now apply cat_eqb_eq]|now apply IH].
Qed.
Lemma body_eqb_eq a b : body_eqb a b = true -> a = b.
Proof.
  destruct a as [a1 a2], b as [b1 b2]. unfold body_eqb. cbn [b_arms b_else]. intro H. split_and.
  f_equal; [now apply arms_eqb_eq|now apply cat_eqb_eq].
Qed.

Lemma body_eqb_refl a : body_eqb a a = true.
Proof.
  assert (O : forall o, operand_eqb o o = true) by (intros []; reflexivity).
  assert (M : forall x, num_eqb x x = true) by (intros []; cbn; now rewrite ?O, ?N.eqb_refl).
  assert (T : forall x, lit_eqb x x = true) by (intros []; cbn; apply N.eqb_refl).
  assert (P : forall x, cmpop_eqb x x = true) by (intros []; reflexivity).
  assert (E : forall e, bexpr_eqb e e = true) by (induction e; cbn [bexpr_eqb]; rewrite ?M, ?T, ?P, ?N.eqb_refl, ?IHe, ?IHe1, ?IHe2; reflexivity).
  assert (A : forall l, arms_eqb l l = true) by (induction l as [|[e c] l IH]; cbn [arms_eqb]; [reflexivity|rewrite E, IH; now destruct c]).
  unfold body_eqb. rewrite A. now destruct (b_else a).
Qed.

(** ** The differences *)
Definition names (l : list string) : list langid := List.map lang l.
Definition added (t : pr_type) : list langid :=
  match t with
  | CARDINAL => names ["an"; "bho"; "ceb"; "ia"; "osa"; "pcm"; "sat"; "sc"; "su"]%string
  | ORDINAL => names ["an"; "gd"; "ia"; "kw"; "sc"]%string
  end.
Definition removed (t : pr_type) : list langid := match t with CARDINAL => names ["bh"]%string | ORDINAL => [] end.
Definition changed (t : pr_type) : list langid := match t with CARDINAL => names ["kw"; "mo"; "mr"; "ro"]%string | ORDINAL => [] end.
Definition compare_tables (old new : table) (ad re ch : list langid) : bool :=
  forallb (fun '(id, b) => if existsb (fun '(k, _) => langid_eqb id k) new then negb (mem id re) else mem id re) old &&
  forallb (fun '(id, b) => if existsb (fun '(k, _) => langid_eqb id k) old then negb (mem id ad) else mem id ad) new &&
  forallb (fun '(id, b) => forallb (fun '(k, b') => negb (langid_eqb id k) || Bool.eqb (negb (body_eqb b b')) (mem id ch)) old) new.
Lemma compared t : compare_tables (prs33 t) (prs t) (added t) (removed t) (changed t) = true.
Proof. destruct t; vm_compute; reflexivity. Qed.

Lemma has_key id b (tbl : table) : In (id, b) tbl -> existsb (fun '(k, _) => langid_eqb id k) tbl = true.
Proof. intro J. apply existsb_exists. exists (id, b). split; [exact J|]. now apply langid_eqb_eq. Qed.
Lemma key_has id (tbl : table) : existsb (fun '(k, _) => langid_eqb id k) tbl = true -> exists b, In (id, b) tbl.
Proof. intro E. apply existsb_exists in E as ([k b'] & J & Q). apply langid_eqb_eq in Q. subst k. now exists b'. Qed.
Lemma some_key (b e : bool) (P : Prop) : (P <-> b = true) -> (if b then negb e else e) = true -> (P <-> ~ e = true).
Proof. intros [H1 H2]. destruct b, e; intro K; try discriminate K; split; intuition congruence. Qed.
Lemma compare_names old new ad re ch : compare_tables old new ad re ch = true ->
  (forall id b, In (id, b) old -> (exists b', In (id, b') new) <-> ~ In id re) /\
  (forall id b, In (id, b) new -> (exists b', In (id, b') old) <-> ~ In id ad) /\
  forall id b b', In (id, b) new -> In (id, b') old -> (b' = b <-> ~ In id ch).
Proof.
  intro C. unfold compare_tables in C. apply andb_prop in C as [C C3]. apply andb_prop in C as [C1 C2]. rewrite forallb_forall in C1, C2, C3.
  split; [|split].
  - intros id b I. specialize (C1 _ I). cbv beta iota in C1. rewrite <- mem_in. refine (some_key _ _ _ _ C1).
    split; [intros [b' J]; exact (has_key id b' new J)|apply key_has].
  - intros id b I. specialize (C2 _ I). cbv beta iota in C2. rewrite <- mem_in. refine (some_key _ _ _ _ C2).
    split; [intros [b' J]; exact (has_key id b' old J)|apply key_has].
  - intros id b b' I J. specialize (C3 _ I). cbv beta iota in C3. rewrite forallb_forall in C3. specialize (C3 _ J). cbv beta iota in C3.
    rewrite (proj2 (langid_eqb_eq id id) eq_refl) in C3. cbn [negb orb] in C3. apply Bool.eqb_prop in C3. rewrite <- mem_in, <- C3. split.
    + intros ->. now rewrite (body_eqb_refl b).
    + intro H. symmetry. apply body_eqb_eq. now destruct (body_eqb b b').
Qed.

Lemma C107_names t :
  (forall id b, In (id, b) (prs33 t) -> (exists b', In (id, b') (prs t)) <-> ~ In id (removed t)) /\
  (forall id b, In (id, b) (prs t) -> (exists b', In (id, b') (prs33 t)) <-> ~ In id (added t)) /\
  forall id b b', In (id, b) (prs t) -> In (id, b') (prs33 t) -> (b' = b <-> ~ In id (changed t)).
Proof. exact (compare_names _ _ _ _ _ (compared t)). Qed.

(** ** Romanian and Moldavian: a change without effect *)
Definition romanian33 : body := mkBody
  [(BOr (BOr (BCmpNL (NField OV) CNe (LInt 0)) (BCmpNL (NField ON) CEq (LFloat 0)))
        (BAnd (BCmpNL (NField ON) CNe (LFloat 1)) (BContains 1 19 (NField OI))), FEW);
   (BAnd (BCmpNL (NField OI) CEq (LInt 1)) (BCmpNL (NField OV) CEq (LInt 0)), ONE)] OTHER.
Definition romanian37 : body := mkBody
  [(BOr (BOr (BCmpNL (NField OV) CNe (LInt 0)) (BCmpNL (NField ON) CEq (LFloat 0))) (BContains 2 19 (NField OI)), FEW);
   (BAnd (BCmpNL (NField OI) CEq (LInt 1)) (BCmpNL (NField OV) CEq (LInt 0)), ONE)] OTHER.
Definition all_are (l : list langid) (b : body) (tbl : table) : bool := forallb (fun '(id, x) => negb (mem id l) || body_eqb x b) tbl.
Lemma all_are_ok l b tbl id x : all_are l b tbl = true -> In (id, x) tbl -> In id l -> x = b.
Proof.
  intros A I J. unfold all_are in A. rewrite forallb_forall in A. specialize (A _ I). cbv beta iota in A. apply mem_in in J. rewrite J in A.
  now apply body_eqb_eq.
Qed.
Definition romanian : list langid := names ["mo"; "ro"]%string.
Lemma are33 : all_are romanian romanian33 (prs33 CARDINAL) = true.
Proof. vm_compute. reflexivity. Qed.
Lemma are37 : all_are romanian romanian37 (prs CARDINAL) = true.
Proof. vm_compute. reflexivity. Qed.
Lemma romanian_same po d : represents po d -> eval_body romanian33 po = eval_body romanian37 po.
Proof.
  intro R. pose proof (rp_eq _ _ R 1 ltac:(reflexivity)) as E1. pose proof (rp_v _ _ R) as V. pose proof (rp_i _ _ R) as Ei. unfold uts_i in Ei.
  unfold eval_body, romanian33, romanian37. cbn [b_arms b_else eval_arms eval is_float lit_int lit_float eval_int int_field rbind unwrap cmp_int cmp_float].
  change (0 <=? u64_max) with true. change (1 <=? u64_max) with true. change (2 <=? u64_max) with true. change (19 <=? u64_max) with true. cbv iota. cbn [rbind].
  destruct (op_v po =? 0) eqn:V0; cbn [negb]; [|reflexivity]. cbn [rbind]. destruct (SFeqb (op_n po) (f64_of_N 0)); [reflexivity|]. cbn [rbind].
  apply N.eqb_eq in V0. rewrite V0 in V. unfold uts_v in V.
  assert (F : d_frac d = []) by (destruct (d_frac d); [reflexivity|discriminate V]).
  unfold uts_num, uts_den, uts_v, uts_f in E1. rewrite F in E1. cbn [List.length frac_value] in E1. change (10 ^ N.of_nat 0) with 1 in E1.
  rewrite N.mul_1_r, N.mul_1_r, N.add_0_r, <- Ei in E1. rewrite E1.
  destruct (N.eqb_spec (op_i po) 1) as [Q|Q]; cbn [negb rbind].
  - rewrite Q. reflexivity.
  - assert (G : (1 <=? op_i po) && (op_i po <=? 19) = (2 <=? op_i po) && (op_i po <=? 19)); [|now rewrite G].
    f_equal. destruct (N.leb_spec 1 (op_i po)), (N.leb_spec 2 (op_i po)); try reflexivity; lia.
Qed.

(** ** In terms of the library's functions *)
Lemma sorted33 t : StronglySorted lt_id (List.map fst (prs33 t)).
Proof. apply lt_sorted_sound. destruct t; vm_compute; reflexivity. Qed.
Lemma table_api how (tb : table) id : StronglySorted lt_id (List.map fst tb) ->
  ((exists pr, create_in how tb id = Ok pr) <-> exists b, In (id, b) tb) /\
  (forall pr, create_in how tb id = Ok pr -> In (id, pr_function pr) tb).
Proof.
  intro S. destruct (create_in_spec how tb id S) as [(b & I & E)|(N & E)]; rewrite E; split.
  - split; [intros _; now exists b|intros _; now exists (mkPR id b)].
  - intros pr Q. injection Q as <-. exact I.
  - split; [intros [pr Q]; discriminate Q|]. intros [b I]. exfalso. apply N. apply in_map_iff. now exists (id, b).
  - intros pr Q. discriminate Q.
Qed.
Definition tests_differently (id : langid) (s : bytes) (old new : table) : bool :=
  match List.find (fun '(k, _) => langid_eqb id k) old, List.find (fun '(k, _) => langid_eqb id k) new, operands_from_str s with
  | Some (_, a), Some (_, b), Ok po =>
      match eval_body a po, eval_body b po with Ok c, Ok c' => negb (cat_eqb c c') | _, _ => false end
  | _, _, _ => false
  end.
Lemma found_in (tb : table) id k b : List.find (fun '(k, _) => langid_eqb id k) tb = Some (k, b) -> In (id, b) tb.
Proof. intro F. apply find_some in F as [I E]. apply langid_eqb_eq in E. now subst k. Qed.
Lemma differs_ok how old new id s pro prn : StronglySorted lt_id (List.map fst old) -> StronglySorted lt_id (List.map fst new) ->
  tests_differently id s old new = true -> create_in how old id = Ok pro -> create_in how new id = Ok prn ->
  forall w, select w pro (InStr s) <> select w prn (InStr s).
Proof.
  intros S1 S2 D C1 C2 w E. unfold tests_differently in D.
  destruct (List.find _ old) as [[k a]|] eqn:F1; [|discriminate D]. destruct (List.find _ new) as [[k' b]|] eqn:F2; [|discriminate D].
  apply found_in in F1, F2. apply (table_api how old id S1) in C1. apply (table_api how new id S2) in C2.
  rewrite (sorted_unique _ _ _ _ S1 F1 C1) in D. rewrite (sorted_unique _ _ _ _ S2 F2 C2) in D.
  unfold select in E. cbn [to_operands] in E. destruct (operands_from_str s) as [po| |]; try discriminate D. rewrite E in D.
  destruct (eval_body (pr_function prn) po) as [c| |]; try discriminate D. now destruct c.
Qed.
Lemma differ_kw : tests_differently (lang "kw") (bs "0") (prs33 CARDINAL) (prs CARDINAL) = true.
Proof. vm_compute. reflexivity. Qed.
Lemma differ_mr : tests_differently (lang "mr") (bs "0") (prs33 CARDINAL) (prs CARDINAL) = true.
Proof. vm_compute. reflexivity. Qed.
Lemma differ_mo : tests_differently (lang "mo") (bs "15e-1") (prs33 CARDINAL) (prs CARDINAL) = true.
Proof. vm_compute. reflexivity. Qed.
Lemma differ_ro : tests_differently (lang "ro") (bs "15e-1") (prs33 CARDINAL) (prs CARDINAL) = true.
Proof. vm_compute. reflexivity. Qed.
Lemma zero_plain : plain (bs "0") (mkDecimal 0 []).
Proof.
  split; [|left; split; [vm_compute; reflexivity|vm_compute; discriminate]].
  exists [], [48], []. repeat split; auto; try discriminate; repeat constructor; discriminate.
Qed.
Lemma functions_equal w a b x : pr_function a = pr_function b -> select w a x = select w b x.
Proof. intro E. unfold select. now rewrite E. Qed.
Lemma functions_agree a b x d : (forall po, represents po d -> eval_body (pr_function a) po = eval_body (pr_function b) po) -> ordinary x d -> select W64 a x = select W64 b x.
Proof. intros E O. destruct (ordinary_ops x d O) as (po & T & R & _). unfold select. rewrite T. now apply E. Qed.
Lemma same_or_not t id : (t = CARDINAL /\ In id (names ["kw"; "mo"; "mr"; "ro"]%string)) <-> In id (changed t).
Proof. destruct t; cbn [changed]; [tauto|]. split; [intros [E _]; discriminate E|intros []]. Qed.

Lemma romanian_left id : In id (changed CARDINAL) -> ~ (CARDINAL = CARDINAL /\ In id (names ["kw"; "mr"]%string)) -> In id romanian.
Proof.
  intros M H. destruct M as [M|[M|[M|[M|[]]]]]; subst id; [exfalso; apply H; split; [reflexivity|now left]|now left|exfalso; apply H; split; [reflexivity|right; now left]|right; now left].
Qed.
Lemma some_inj {A} (a b : A) : Some a = Some b -> a = b.
Proof. congruence. Qed.
Lemma C107_lemma t tbl how : output_table t (trim fixture33_rs) = Some tbl ->
  (forall id old, create_in how tbl id = Ok old -> (exists pr, create how id t = Ok pr) <-> ~ In id (removed t)) /\
  (forall id pr, create how id t = Ok pr -> (exists old, create_in how tbl id = Ok old) <-> ~ In id (added t)) /\
  forall id old pr, create_in how tbl id = Ok old -> create how id t = Ok pr ->
    ((forall w x, select w old x = select w pr x) <-> ~ (t = CARDINAL /\ In id (names ["kw"; "mo"; "mr"; "ro"]%string))) /\
    ((forall x d, ordinary x d -> select W64 old x = select W64 pr x) <-> ~ (t = CARDINAL /\ In id (names ["kw"; "mr"]%string))).
Proof.
  intro T. rewrite prs33_read in T. apply some_inj in T. rewrite <- T. clear T. pose proof (C107_names t) as (N1 & N2 & N3). unfold create.
  pose proof (sorted33 t) as S1. pose proof (prs_sorted t) as S2. split; [|split].
  - intros id old C. apply (table_api how _ id S1) in C. rewrite (proj1 (table_api how _ id S2)). exact (N1 id _ C).
  - intros id pr C. apply (table_api how _ id S2) in C. rewrite (proj1 (table_api how _ id S1)). exact (N2 id _ C).
  - intros id old pr C1 C2. pose proof (proj2 (table_api how _ id S1) _ C1) as I1. pose proof (proj2 (table_api how _ id S2) _ C2) as I2.
    pose proof (N3 id _ _ I2 I1) as Q. rewrite same_or_not.
    assert (D : forall s, tests_differently id s (prs33 t) (prs t) = true -> forall w, select w old (InStr s) <> select w pr (InStr s)).
    { intros s H. exact (differs_ok how _ _ id s old pr S1 S2 H C1 C2). }
    split; split.
    + intros H J. destruct t; [|destruct J]. destruct J as [J|[J|[J|[J|[]]]]]; subst id.
      * exact (D _ differ_kw W64 (H W64 _)).
      * exact (D _ differ_mo W64 (H W64 _)).
      * exact (D _ differ_mr W64 (H W64 _)).
      * exact (D _ differ_ro W64 (H W64 _)).
    + intros H w x. exact (functions_equal w old pr x (proj2 Q H)).
    + intros H [-> J]. destruct J as [J|[J|[]]]; subst id.
      * exact (D _ differ_kw W64 (H _ _ (ord_str _ _ zero_plain))).
      * exact (D _ differ_mr W64 (H _ _ (ord_str _ _ zero_plain))).
    + intros H x d O. destruct (mem id (changed t)) eqn:M.
      * apply mem_in in M. destruct t; [|destruct M].
        pose proof (romanian_left id M H) as J.
        apply (functions_agree old pr x d); [|exact O]. intros po R.
        rewrite (all_are_ok _ _ _ _ _ are33 I1 J), (all_are_ok _ _ _ _ _ are37 I2 J). exact (romanian_same po d R).
      * refine (functions_equal W64 old pr x (proj2 Q _)). rewrite <- mem_in, M. discriminate.
Qed.
