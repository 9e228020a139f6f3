(** * The shipped rules against the CLDR data *)
From Coq Require Import Lia Floats.SpecFloat.
From Verif Require Import Base F64 Operands Ast LangId GenRs GenPr RustExpr PluralRules Tables Json Cldr Spec
  LangIdFacts ApiProps GenFacts GenMeaning.
Open Scope N_scope.

Definition operand_eq_dec (a b : operand) : {a = b} + {a <> b}. Proof. decide equality. Defined.
Definition num_eq_dec (a b : num) : {a = b} + {a <> b}.
Proof. decide equality; try apply N.eq_dec; apply operand_eq_dec. Defined.
Definition lit_eq_dec (a b : lit) : {a = b} + {a <> b}. Proof. decide equality; apply N.eq_dec. Defined.
Definition cmpop_eq_dec (a b : cmpop) : {a = b} + {a <> b}. Proof. decide equality. Defined.
Definition bexpr_eq_dec (a b : bexpr) : {a = b} + {a <> b}.
Proof. decide equality; try apply N.eq_dec; auto using num_eq_dec, lit_eq_dec, cmpop_eq_dec. Defined.

Definition expr_is (cond : condition) (e : bexpr) : bool :=
  match cond_expr cond with Some e' => if bexpr_eq_dec e' e then true else false | None => false end.
Lemma expr_is_sound cond e : expr_is cond e = true -> cond_expr cond = Some e.
Proof. unfold expr_is. destruct (cond_expr cond); [|discriminate]. now destruct (bexpr_eq_dec b e) as [->|]. Qed.

(** the arms of the body are the conditions of the rules, in some order *)
Definition body_matches (b : body) (rs : list (category * condition)) : bool :=
  cat_eqb (b_else b) OTHER &&
  forallb (fun '(e, c) => negb (cat_eqb c OTHER) &&
     existsb (fun '(c', cond) => cat_eqb c c' && expr_is cond e) rs) (b_arms b) &&
  forallb (fun '(c, cond) => cat_eqb c OTHER ||
     existsb (fun '(e, c') => cat_eqb c c' && expr_is cond e) (b_arms b)) rs.

Definition find_rules (t : pr_type) (id : langid) : option (list (category * condition)) :=
  option_map snd (List.find (fun e => langid_eqb id (fst e)) (cldr t)).
Definition all_match (t : pr_type) : bool :=
  forallb (fun '(id, b) => match find_rules t id with Some rs => body_matches b rs | None => false end) (prs t).
Lemma all_match_true t : all_match t = true.
Proof. destruct t; vm_compute; reflexivity. Qed.

Lemma find_rules_in t id rs : find_rules t id = Some rs -> In (id, rs) (cldr t).
Proof.
  unfold find_rules. destruct (List.find _ (cldr t)) as [[l r]|] eqn:F; [|discriminate].
  cbn. intro H. injection H as <-. apply List.find_some in F as [I E]. cbn in E.
  apply langid_eqb_eq in E. now subst.
Qed.
Lemma in_find_rules t id rs : In (id, rs) (cldr t) -> find_rules t id = Some rs.
Proof.
  intro I. unfold find_rules. destruct (List.find _ (cldr t)) as [[l r]|] eqn:F.
  - apply List.find_some in F as [J E]. cbn in E. apply langid_eqb_eq in E. subst l. cbn.
    f_equal. exact (cldr_unique t id r rs J I).
  - exfalso. apply (List.find_none _ _ F) in I. cbn in I.
    assert (langid_eqb id id = true) by now apply langid_eqb_eq. congruence.
Qed.
Lemma body_rules t id b : In (id, b) (prs t) ->
  exists rs, In (id, rs) (cldr t) /\ body_matches b rs = true.
Proof.
  intro I. pose proof (all_match_true t) as A. unfold all_match in A. rewrite forallb_forall in A.
  specialize (A _ I). cbn in A. destruct (find_rules t id) as [rs|] eqn:F; [|discriminate].
  exists rs. split; [now apply find_rules_in|assumption].
Qed.

(** ** All conditions of a locale supported *)
Definition rules_supported (ai : bool) (rs : list (category * condition)) : bool :=
  forallb (fun '(c, cond) => cat_eqb c OTHER || supported ai cond) rs.

Lemma arm_value ai cond e po d :
  represents po d -> proper d -> (ai = true -> uts_f d = 0) -> supported ai cond = true ->
  cond_expr cond = Some e -> eval e po = Ok (uts_condition cond d).
Proof.
  intros R P AI S C. destruct (cond_ok ai cond po d R P AI S) as (ts & e' & G & RB & E).
  destruct (cond_expr_ok cond e C) as (ts2 & G2 & RB2). rewrite G in G2. injection G2 as <-.
  rewrite RB in RB2. injection RB2 as <-. exact E.
Qed.
Lemma body_follows ai b rs po d :
  body_matches b rs = true -> rules_supported ai rs = true ->
  represents po d -> proper d -> (ai = true -> uts_f d = 0) ->
  exists c, eval_body b po = Ok c /\ cldr_select rs d c.
Proof.
  intros M S R P AI. unfold body_matches in M. apply andb_prop in M as [M M3]. apply andb_prop in M as [M1 M2].
  apply cat_eqb_eq in M1. unfold rules_supported in S. rewrite forallb_forall in S.
  assert (Z : forall cond e c, In (c, cond) rs -> c <> OTHER -> cond_expr cond = Some e -> eval e po = Ok (uts_condition cond d)).
  { intros cond e c I NO C. specialize (S _ I). cbn in S. apply orb_prop in S as [S|S].
    - apply cat_eqb_eq in S. congruence.
    - exact (arm_value ai cond e po d R P AI S C). }
  unfold eval_body. rewrite M1.
  assert (K : (exists c cond, eval_arms (b_arms b) OTHER po = Ok c /\ c <> OTHER /\ In (c, cond) rs /\ uts_condition cond d = true) \/
              (eval_arms (b_arms b) OTHER po = Ok OTHER /\ Forall (fun '(e, c) => eval e po = Ok false) (b_arms b))).
  { clear M3. induction (b_arms b) as [|[e c] arms IH].
    - right. split; [reflexivity|constructor].
    - cbn [forallb] in M2. apply andb_prop in M2 as [M2 M2']. apply andb_prop in M2 as [N X].
      apply existsb_exists in X as ((c' & cond) & I & X). apply andb_prop in X as [X1 X2].
      apply cat_eqb_eq in X1. subst c'. apply expr_is_sound in X2.
      assert (NO : c <> OTHER) by (intros ->; discriminate N).
      cbn [eval_arms]. rewrite (Z cond e c I NO X2). cbn [rbind].
      destruct (uts_condition cond d) eqn:U.
      + left. exists c, cond. auto.
      + destruct (IH M2') as [L|[L F]]; [left; exact L|]. right. split; [exact L|].
        constructor; [rewrite (Z cond e c I NO X2), U; reflexivity|exact F]. }
  destruct K as [(c & cond & E & NO & I & U)|[E F]].
  - exists c. split; [exact E|]. left. split; [exact NO|]. exists cond. auto.
  - exists OTHER. split; [exact E|]. right. split; [reflexivity|]. intros c' cond I NO.
    rewrite forallb_forall in M3. specialize (M3 _ I). cbn in M3. apply orb_prop in M3 as [M3|M3].
    + apply cat_eqb_eq in M3. congruence.
    + apply existsb_exists in M3 as ((e & c2) & J & X). apply andb_prop in X as [X1 X2]. apply expr_is_sound in X2.
      rewrite Forall_forall in F. specialize (F _ J). cbn in F. rewrite (Z cond e c' I NO X2) in F. now injection F.
Qed.

(** ** Deciding [cldr_select] *)
Definition cldr_selectb (rules : list (category * condition)) (d : decimal) (c : category) : bool :=
  if cat_eqb c OTHER then forallb (fun '(c', cond) => cat_eqb c' OTHER || negb (uts_condition cond d)) rules
  else existsb (fun '(c', cond) => cat_eqb c' c && uts_condition cond d) rules.
Lemma cldr_selectb_iff rules d c : cldr_selectb rules d c = true <-> cldr_select rules d c.
Proof.
  unfold cldr_selectb, cldr_select. destruct (cat_eqb c OTHER) eqn:O.
  - apply cat_eqb_eq in O. subst c. rewrite forallb_forall. split.
    + intro H. right. split; [reflexivity|]. intros c' cond I N. specialize (H _ I). cbn in H.
      apply orb_prop in H as [H|H]; [apply cat_eqb_eq in H; congruence|now apply Bool.negb_true_iff].
    + intros [[N _]|[_ H]]; [easy|]. intros [c' cond] I. specialize (H c' cond I).
      destruct (cat_eqb c' OTHER) eqn:Q; [reflexivity|]. cbn. rewrite H; [reflexivity|].
      intros ->. discriminate.
  - assert (N : c <> OTHER) by (intros ->; discriminate). rewrite existsb_exists. split.
    + intros ((c' & cond) & I & H). apply andb_prop in H as [H1 H2]. apply cat_eqb_eq in H1. subst c'.
      left. split; [exact N|]. eauto.
    + intros [[_ (cond & I & U)]|[Q _]]; [|easy]. exists (c, cond). split; [exact I|].
      rewrite U. now rewrite (proj2 (cat_eqb_eq c c) eq_refl).
Qed.

(** ** The lists *)
Definition lang (s : string) : langid := mkLang (Some (bs s)) None None None.
(** right on integers, wrong on some fraction *)
Definition fraction_wrong (t : pr_type) : list langid :=
  match t with
  | CARDINAL => []
  | ORDINAL => [lang "be"; lang "en"; lang "kk"; lang "sq"; lang "sv"; lang "tk"; lang "uk"]
  end.
(** wrong on some integer *)
Definition integer_wrong (t : pr_type) : list langid :=
  match t with
  | CARDINAL => [lang "ar"; lang "ars"; lang "be"; lang "br"; lang "kw"; lang "lt"; lang "lv"; lang "mo"; lang "mt"; lang "prg"; lang "ro"]
  | ORDINAL => [lang "kw"]
  end.
Definition mem (id : langid) (l : list langid) : bool := existsb (langid_eqb id) l.
Lemma mem_in id l : mem id l = true <-> In id l.
Proof.
  unfold mem. rewrite existsb_exists. split.
  - intros (x & I & E). apply langid_eqb_eq in E. now subst.
  - intro I. exists id. split; [exact I|]. now apply langid_eqb_eq.
Qed.
Definition lists_ok (t : pr_type) : bool :=
  forallb (fun '(id, rs) =>
    (mem id (integer_wrong t) || rules_supported true rs) &&
    (mem id (integer_wrong t) || mem id (fraction_wrong t) || rules_supported false rs)) (cldr t).
Lemma lists_ok_true t : lists_ok t = true.
Proof. destruct t; vm_compute; reflexivity. Qed.
Lemma not_mem id l : ~ In id l -> mem id l = false.
Proof. intro N. destruct (mem id l) eqn:M; [|reflexivity]. apply mem_in in M. easy. Qed.
Lemma supported_int t id rs : In (id, rs) (cldr t) -> ~ In id (integer_wrong t) -> rules_supported true rs = true.
Proof.
  intros I N. pose proof (lists_ok_true t) as L. unfold lists_ok in L. rewrite forallb_forall in L.
  specialize (L _ I). cbn beta iota in L. rewrite (not_mem _ _ N) in L. now apply andb_prop in L as [L _].
Qed.
Lemma supported_all t id rs : In (id, rs) (cldr t) -> ~ In id (integer_wrong t) -> ~ In id (fraction_wrong t) ->
  rules_supported false rs = true.
Proof.
  intros I N N'. pose proof (lists_ok_true t) as L. unfold lists_ok in L. rewrite forallb_forall in L.
  specialize (L _ I). cbn beta iota in L. rewrite (not_mem _ _ N), (not_mem _ _ N') in L. now apply andb_prop in L as [_ L].
Qed.

Lemma follows how id t pr w x po d :
  create how id t = Ok pr -> to_operands w x = Ok po -> represents po d -> proper d ->
  ~ In id (integer_wrong t) -> (In id (fraction_wrong t) -> uts_f d = 0) ->
  exists rules c, In (id, rules) (cldr t) /\ select w pr x = Ok c /\ cldr_select rules d c.
Proof.
  intros C T R P NI NF. apply C22_lemma in C as [I _].
  destruct (body_rules t id _ I) as (rs & J & M).
  unfold select. rewrite T.
  destruct (mem id (fraction_wrong t)) eqn:F.
  - apply mem_in in F.
    destruct (body_follows true _ rs po d M (supported_int t id rs J NI) R P (fun _ => NF F)) as (c & E & S). eauto.
  - assert (NF' : ~ In id (fraction_wrong t)) by (intro Q; apply mem_in in Q; congruence).
    destruct (body_follows false _ rs po d M (supported_all t id rs J NI NF') R P) as (c & E & S); [discriminate|]. eauto.
Qed.
