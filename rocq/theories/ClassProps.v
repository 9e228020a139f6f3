(** * Lemmas behind C85 and C86 *)
From Coq Require Import Lia Floats.SpecFloat.
From Verif Require Import Base F64 Operands Ast LangId GenRs RustExpr PluralRules Tables Cldr Spec ApiProps Represents
  Conformance BehaviourSpec CycleProps.
Open Scope N_scope.

(** ** C85 *)
(** [(0..=1).contains(&x)] written as [x == 0 || x == 1] *)
Fixpoint expand (e : bexpr) : bexpr :=
  match e with
  | BContains 0 1 x => if is_float x then e else BOr (BCmpNL x CEq (LInt 0)) (BCmpNL x CEq (LInt 1))
  | BNot b => BNot (expand b)
  | BAnd a b => BAnd (expand a) (expand b)
  | BOr a b => BOr (expand a) (expand b)
  | _ => e
  end.
Lemma expand_ok e po : eval (expand e) po = eval e po.
Proof.
  induction e as [x op l|l op x|lo hi x|e IH|e1 IH1 e2 IH2|e1 IH1 e2 IH2]; cbn [expand]; try reflexivity.
  - destruct lo as [|lo]; [|reflexivity]. destruct hi as [|[hi|hi|]]; try reflexivity.
    destruct (is_float x) eqn:F; [reflexivity|]. cbn [eval]. rewrite F. cbn [lit_int rbind].
    destruct (eval_int x po) as [v| |]; try reflexivity. now destruct v as [|[v|v|]].
  - cbn [eval]. now rewrite IH.
  - cbn [eval]. now rewrite IH1, IH2.
  - cbn [eval]. now rewrite IH1, IH2.
Qed.
Definition expand_body (b : body) : body := mkBody (List.map (fun '(e, c) => (expand e, c)) (b_arms b)) (b_else b).
Lemma expand_body_ok b po : eval_body (expand_body b) po = eval_body b po.
Proof.
  unfold eval_body, expand_body. cbn [b_arms b_else]. induction (b_arms b) as [|[e c] r IH]; [reflexivity|].
  cbn [List.map eval_arms]. now rewrite expand_ok, IH.
Qed.
Definition body_eq_dec (a b : body) : {a = b} + {a <> b}.
Proof.
  decide equality; [decide equality|]. apply list_eq_dec. decide equality; [decide equality|apply bexpr_eq_dec].
Defined.

Definition separators (t : pr_type) : list bytes :=
  match t with
  | CARDINAL => List.map bs ["0.2"; "0"; "6.0"; "21"; "0.1"; "1"; "1.0"; "2"; "1.1"; "7"]
  | ORDINAL => List.map bs ["2"; "3"; "5"; "6"; "11"; "1"; "4"; "10"]
  end%string.
Definition differ_on (a b : body) (s : bytes) : bool :=
  match operands_from_str s with
  | Ok po => match eval_body a po, eval_body b po with Ok c, Ok c' => negb (cat_eqb c c') | _, _ => false end
  | _ => false
  end.
(** one closure per class *)
Definition representative (t : pr_type) (s : string) : body :=
  match List.find (fun e => listed (fst e) s) (prs t) with Some e => expand_body (snd e) | None => mkBody [] OTHER end.
Definition representatives (t : pr_type) : list (string * body) :=
  List.map (fun s => (s, representative t s)) (classes t).
Definition class_of (t : pr_type) (id : langid) : list (string * body) :=
  List.filter (fun '(s, _) => listed id s) (representatives t).
Lemma all_classed t : (let l := representatives t in
  forallb (fun e => match List.filter (fun '(s, _) => listed (fst e) s) l with
                    | [(_, b)] => if body_eq_dec (expand_body (snd e)) b then true else false
                    | _ => false end) (prs t)) = true.
Proof. destruct t; vm_compute; reflexivity. Qed.
Lemma all_apart t : (let l := representatives t in
  forallb (fun '(s, a) => forallb (fun '(s', b) => String.eqb s s' || existsb (differ_on a b) (separators t)) l) l) = true.
Proof. destruct t; vm_compute; reflexivity. Qed.

Lemma classed t id b : In (id, b) (prs t) ->
  exists s r, class_of t id = [(s, r)] /\ expand_body b = r.
Proof.
  intro I. pose proof (all_classed t) as A. cbv zeta in A. rewrite forallb_forall in A. specialize (A _ I). cbn [fst snd] in A.
  unfold class_of. destruct (List.filter _ _) as [|[s r] [|]]; try discriminate.
  destruct (body_eq_dec (expand_body b) r); [|discriminate]. eauto.
Qed.
Lemma same_class_iff t a b s r s' r' : class_of t a = [(s, r)] -> class_of t b = [(s', r')] ->
  same_class t a b = String.eqb s s'.
Proof.
  intros A B.
  assert (W : forall id s r k, class_of t id = [(s, r)] -> In k (classes t) -> listed id k = true <-> k = s).
  { intros id s0 r0 k E I. split.
    - intro L. assert (J : In (k, representative t k) (class_of t id)).
      { apply filter_In. split; [|exact L]. apply in_map_iff. eauto. }
      rewrite E in J. destruct J as [J|[]]. congruence.
    - intros ->. assert (J : In (s0, r0) (class_of t id)) by (rewrite E; now left).
      now apply filter_In in J as [_ J]. }
  assert (M : forall id s r, class_of t id = [(s, r)] -> In s (classes t)).
  { intros id s0 r0 E. assert (J : In (s0, r0) (class_of t id)) by (rewrite E; now left).
    apply filter_In in J as [J _]. apply in_map_iff in J as (k & J & K). now injection J as <- _. }
  apply eq_true_iff_eq. rewrite String.eqb_eq. unfold same_class. rewrite existsb_exists. split.
  - intros (k & I & L). apply andb_prop in L as [L1 L2]. apply (W a s r k A I) in L1. apply (W b s' r' k B I) in L2. congruence.
  - intros ->. exists s'. pose proof (M a s' r A) as I. split; [exact I|].
    rewrite (proj2 (W a s' r s' A I) eq_refl), (proj2 (W b s' r' s' B I) eq_refl). reflexivity.
Qed.
Lemma class_rep t id s r : class_of t id = [(s, r)] -> In (s, r) (representatives t).
Proof. intro E. assert (J : In (s, r) (class_of t id)) by (rewrite E; now left). now apply filter_In in J as [J _]. Qed.

Lemma C85_lemma how how' id id' t pr pr' : create how id t = Ok pr -> create how' id' t = Ok pr' ->
  ((forall w x, select w pr x = select w pr' x) <-> same_class t id id' = true).
Proof.
  intros C C'. apply C22_lemma in C as [I _]. apply C22_lemma in C' as [I' _].
  destruct (classed t id _ I) as (s & r & E & R). destruct (classed t id' _ I') as (s' & r' & E' & R').
  rewrite (same_class_iff t id id' s r s' r' E E'), String.eqb_eq. split.
  - intro H. destruct (String.eqb_spec s s') as [|N]; [assumption|exfalso].
    pose proof (all_apart t) as A. cbv zeta in A. rewrite forallb_forall in A. specialize (A _ (class_rep t id s r E)).
    cbn beta iota in A. rewrite forallb_forall in A. specialize (A _ (class_rep t id' s' r' E')). cbn beta iota in A.
    apply orb_prop in A as [A|A]; [now apply String.eqb_eq in A|].
    apply existsb_exists in A as (k & _ & D). unfold differ_on in D. specialize (H W64 (InStr k)). unfold select in H.
    cbn [to_operands] in H. destruct (operands_from_str k) as [po| |]; try discriminate.
    rewrite <- R, <- R', !expand_body_ok in D. rewrite H in D.
    destruct (eval_body (pr_function pr') po) as [c| |]; try discriminate.
    now rewrite (proj2 (cat_eqb_eq c c) eq_refl) in D.
  - intros -> w x. assert (Q : r = r').
    { apply class_rep in E, E'. unfold representatives in E, E'. apply in_map_iff in E as (k & E & _).
      apply in_map_iff in E' as (k' & E' & _). congruence. }
    unfold select. destruct (to_operands w x) as [po| |]; try reflexivity.
    rewrite <- (expand_body_ok (pr_function pr)), <- (expand_body_ok (pr_function pr')). congruence.
Qed.

(** ** C86 *)
Definition all_categories : list category := [ZERO; ONE; TWO; FEW; MANY; OTHER].
Definition has_rule (rules : list (category * condition)) (c : category) : bool :=
  existsb (fun '(c', _) => cat_eqb c' c) rules.
Definition tries : list bytes :=
  List.map bs ["0"; "1"; "2"; "3"; "4"; "5"; "6"; "7"; "8"; "9"; "10"; "11"; "12"; "20"; "21"; "22"; "40"; "100"; "1000"; "1000000";
               "1.5"; "0.1"; "2.5"]%string.
Definition reached (b : body) (c : category) : bool :=
  existsb (fun s => match operands_from_str s with
                    | Ok po => match eval_body b po with Ok c' => cat_eqb c' c | _ => false end
                    | _ => false end) tries.
Definition int_tries : list N := [0; 1; 2; 3; 4; 5; 6; 7; 8; 9; 10; 11; 12; 20; 21; 22; 40; 100; 1000; 1000000].
Definition int_reached (b : body) (c : category) : bool := existsb (fun x => cat_eqb (int_select b x) c) int_tries.
Definition int_never (b : body) (c : category) : bool :=
  negb (body_period b =? 0) &&
  check_from (fun x => negb (cat_eqb (int_select b x) c)) (N.to_nat (body_bound b + body_period b)) 0.
Definition entry_reaches (t : pr_type) (e : langid * body) : bool :=
  match find_rules t (fst e) with
  | Some rules =>
      forallb (fun c => negb (has_rule rules c || cat_eqb c OTHER) ||
                 (reached (snd e) c &&
                  (if never_for_integers t (fst e) c then int_never (snd e) c else int_reached (snd e) c))) all_categories
  | None => false
  end.
Lemma all_reach t : forallb (entry_reaches t) (prs t) = true.
Proof. destruct t; vm_compute; reflexivity. Qed.
Lemma int_never_ok b c : body_compiles b = true -> int_never b c = true -> forall x, int_select b x <> c.
Proof.
  intros C H x E. unfold int_never in H. apply andb_prop in H as [P H]. apply Bool.negb_true_iff, N.eqb_neq in P.
  assert (K : forall y, y < body_bound b + body_period b -> int_select b y <> c).
  { intros y Y Q. pose proof (check_from_ok _ _ _ H y ltac:(lia)) as Z. rewrite N2Nat.id in Z. specialize (Z Y). cbn beta in Z.
    rewrite Q, (proj2 (cat_eqb_eq c c) eq_refl) in Z. discriminate. }
  destruct (N.lt_ge_cases x (body_bound b)) as [L|G]; [apply (K x); [lia|exact E]|].
  set (B := body_bound b) in *. set (p := body_period b) in *.
  pose proof (N.mod_lt (x - B) p P) as M.
  apply (K (B + (x - B) mod p)); [lia|]. rewrite <- E.
  apply (body_cycle b B p); auto; try apply N.divide_refl; try (fold B); try lia.
  pose proof (N.div_mod (x - B) p P) as D.
  replace x with (B + (x - B) mod p + ((x - B) / p) * p) at 2 by lia. symmetry. now apply N.mod_add.
Qed.
Lemma C86_lemma how id t pr w rules c : create how id t = Ok pr -> In (id, rules) (cldr t) ->
  (exists cond, In (c, cond) rules) \/ c = OTHER ->
  (exists s, select w pr (InStr s) = Ok c) /\
  ((exists x, x < 2 ^ 64 /\ select w pr (InUnsigned x) = Ok c) <-> never_for_integers t id c = false).
Proof.
  intros C I D. pose proof C as C0. apply C22_lemma in C0 as [J _]. apply in_find_rules in I.
  pose proof (all_reach t) as A. rewrite forallb_forall in A. specialize (A _ J). unfold entry_reaches in A. cbn [fst snd] in A.
  rewrite I in A. rewrite forallb_forall in A.
  assert (IC : In c all_categories) by (destruct c; cbn; tauto). specialize (A c IC).
  assert (H : has_rule rules c || cat_eqb c OTHER = true).
  { apply orb_true_iff. destruct D as [(cond & D)| ->]; [left|now right]. apply existsb_exists. exists (c, cond).
    split; [exact D|]. now apply cat_eqb_eq. }
  rewrite H in A. cbn [negb orb] in A. apply andb_prop in A as [R N]. split.
  - apply existsb_exists in R as (s & _ & R). exists s. unfold select. cbn [to_operands].
    destruct (operands_from_str s) as [po| |]; try discriminate. destruct (eval_body (pr_function pr) po) as [c'| |]; try discriminate.
    apply cat_eqb_eq in R. now subst.
  - destruct (never_for_integers t id c) eqn:NV.
    + split; [|discriminate]. intros (x & X & S). rewrite (select_int how id t pr w x C X) in S. injection S as S.
      exfalso. exact (int_never_ok _ c (prs_compile t id _ J) N x S).
    + split; [reflexivity|]. intros _. apply existsb_exists in N as (x & M & E). apply cat_eqb_eq in E.
      assert (X : x < 2 ^ 64).
      { assert (K : forallb (fun x => x <? 2 ^ 64) int_tries = true) by reflexivity.
        rewrite forallb_forall in K. now apply N.ltb_lt, K. }
      exists x. split; [exact X|]. rewrite (select_int how id t pr w x C X). now rewrite E.
Qed.
