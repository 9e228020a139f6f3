(** * Lemmas behind C84 *)
From Coq Require Import Lia Lra Reals Floats.SpecFloat.
From Flocq Require Import Core.
From Verif Require Import Base F64 Operands Ast LangId GenRs RustExpr PluralRules Tables Spec SpecR F64Facts ApiProps
  DigitFacts OperandsFacts OperandsProps
  GenMeaning Represents BehaviourSpec.
Open Scope N_scope.

(** the operands an indifferent closure cannot tell apart *)
Definition alike (a b : operands) : Prop :=
  (forall k, k < 2 ^ 53 -> SFeqb (op_n a) (f64_of_N k) = SFeqb (op_n b) (f64_of_N k)) /\
  op_i a = op_i b /\ (op_f a =? 0) = (op_f b =? 0) /\ (op_t a =? 0) = (op_t b =? 0).
Definition about_i (x : num) : bool := match x with NField OI | NMod OI _ => true | _ => false end.
Fixpoint indifferent (e : bexpr) : bool :=
  match e with
  | BCmpNL (NField ON) (CEq | CNe) (LFloat k) => k <? 2 ^ 53
  | BCmpNL (NField (OF | OT)) (CEq | CNe) (LInt 0) => true
  | BCmpNL x _ (LInt _) => about_i x
  | BContains _ _ x => about_i x
  | BNot b => indifferent b
  | BAnd a b | BOr a b => indifferent a && indifferent b
  | _ => false
  end.
Lemma about_i_eq x a b : about_i x = true -> op_i a = op_i b -> eval_int x a = eval_int x b.
Proof. intros A E. destruct x as [[]|[] m]; try discriminate; cbn; now rewrite E. Qed.
Lemma about_i_int x : about_i x = true -> is_float x = false.
Proof. destruct x as [[]|[] m]; easy. Qed.
Lemma indifferent_eq e a b : indifferent e = true -> alike a b -> eval e a = eval e b.
Proof.
  intros H (N & I & F & T). induction e as [x op l|l op x|lo hi x|e IH|e1 IH1 e2 IH2|e1 IH1 e2 IH2]; cbn [indifferent] in H.
  - destruct (about_i x) eqn:A.
    { cbn [eval]. rewrite (about_i_int x A), (about_i_eq x a b A I). reflexivity. }
    destruct x as [[]|[] m]; try discriminate A.
    + destruct l as [k|k]; [now destruct op|].
      assert (K : k < 2 ^ 53) by (apply N.ltb_lt; now destruct op).
      cbn [eval is_float lit_float rbind]. destruct op; try discriminate; cbn [cmp_float]; now rewrite (N k K).
    + destruct op, l as [[|k]|k]; discriminate.
    + destruct op, l as [[|k]|k]; discriminate.
    + destruct op, l as [[|k]|k]; try discriminate; cbn; now rewrite F.
    + destruct op, l as [[|k]|k]; try discriminate; cbn; now rewrite T.
    + destruct op, l as [[|k]|k]; discriminate.
    + destruct op, l as [[|k]|k]; discriminate.
    + destruct op, l as [[|k]|k]; discriminate.
    + destruct op, l as [[|k]|k]; discriminate.
    + destruct op, l as [[|k]|k]; discriminate.
  - discriminate.
  - cbn [eval]. now rewrite (about_i_eq x a b H I).
  - cbn [eval]. now rewrite IH.
  - apply andb_prop in H as [H1 H2]. cbn [eval]. now rewrite IH1, IH2.
  - apply andb_prop in H as [H1 H2]. cbn [eval]. now rewrite IH1, IH2.
Qed.
Definition body_indifferent (f : body) : bool := forallb (fun '(e, _) => indifferent e) (b_arms f).
Lemma body_indifferent_eq f a b : body_indifferent f = true -> alike a b -> eval_body f a = eval_body f b.
Proof.
  unfold body_indifferent, eval_body. intros H A. induction (b_arms f) as [|[e c] r IH]; [reflexivity|].
  cbn [forallb] in H. apply andb_prop in H as [H1 H2]. cbn [eval_arms]. now rewrite (indifferent_eq e a b H1 A), IH.
Qed.

(** ** Decimals of one value *)
Lemma den_pos' d : 0 < uts_den d.
Proof. unfold uts_den. apply N.neq_0_lt_0, N.pow_nonzero. lia. Qed.
Lemma same_value_parts d d' : proper d -> proper d' -> same_value d d' ->
  uts_i d = uts_i d' /\ (uts_f d = 0 <-> uts_f d' = 0).
Proof.
  intros P P' E. unfold same_value in E. pose proof (den_pos' d). pose proof (den_pos' d').
  assert (F : uts_f d < uts_den d) by (apply frac_value_lt, P).
  assert (F' : uts_f d' < uts_den d') by (apply frac_value_lt, P').
  assert (I : d_int d = d_int d').
  { unfold uts_num in E. set (a := uts_den d) in *. set (b := uts_den d') in *.
    destruct (N.lt_trichotomy (d_int d) (d_int d')) as [L|[L|L]]; [exfalso|exact L|exfalso].
    - assert (d_int d * a + uts_f d < d_int d' * a) by nia. nia.
    - assert (d_int d' * b + uts_f d' < d_int d * b) by nia. nia. }
  split; [exact I|]. unfold uts_num in E. rewrite I in E. split; intro Z; rewrite Z in E; nia.
Qed.
(** what the conversion makes of a numeral, of any size *)
Lemma numeral_operands s d po : numeral s d -> operands_from_str s = Ok po -> keeps_integer d ->
  op_n po = dec64 (uts_num d) (- Z.of_N (uts_v d)) /\ op_i po = uts_i d /\ op_f po = uts_f d /\ (op_t po = 0 <-> op_f po = 0).
Proof.
  intros (sg & i & f & S & Di & Ni & Df & -> & ->) E K.
  assert (T : op_t po = 0 <-> op_f po = 0).
  { destruct (C07_lemma _ _ E) as (W & F & _). rewrite F. split; [intros ->; lia|].
    intro Z. apply N.eq_mul_0 in Z as [Z|Z]; [exact Z|]. exfalso. now apply (N.pow_nonzero 10) in Z. }
  unfold uts_num, uts_den, uts_v, uts_f, uts_i. unfold keeps_integer, uts_v, uts_i in K. cbn [d_int d_frac] in *.
  change (fun c => c - 48) with dig in *. rewrite map_length, frac_value_dig in *.
  destruct f as [|c f].
  - rewrite app_nil_r in E. destruct K as [K|K]; [now elim K|]. rewrite from_str_int in E by auto.
    rewrite f64_of_N_trunc_exact in E by exact K. injection E as <-. cbn [op_n op_i op_f op_t dval List.length] in *.
    change (10 ^ N.of_nat 0) with 1. rewrite N.mul_1_r, N.add_0_r. repeat split; auto.
  - change (46 :: c :: f) with ([46] ++ c :: f)%list in E.
    destruct (accepted_frac_bounds sg i (c :: f) po S Di Df Ni ltac:(discriminate) E) as [Bi Bf].
    destruct (trailing_exists (c :: f)) as [g W].
    rewrite (from_str_frac sg i (c :: f) g) in E by (auto; discriminate). injection E as <-.
    cbn [op_n op_i op_f op_t] in *. split; [|auto]. rewrite dval_app, nat_N_Z. reflexivity.
Qed.
Lemma same_value_real d d' : same_value d d' ->
  dec_real (uts_num d) (- Z.of_N (uts_v d)) = dec_real (uts_num d') (- Z.of_N (uts_v d')).
Proof.
  unfold same_value, uts_den, dec_real. intro E. rewrite !bpow_opp, <- !IZR_Zpower by lia.
  assert (P : forall v, (10 ^ Z.of_N v)%Z = Z.of_N (10 ^ v)) by (intro v; now rewrite N2Z.inj_pow).
  assert (Q : forall v, IZR (Z.of_N (10 ^ v)) <> 0%R).
  { intro v. apply IZR_neq. pose proof (N.pow_nonzero 10 v). lia. }
  change (Zpower radix10) with (Z.pow 10). change (Z.of_N 10) with 10%Z. rewrite !P.
  apply (f_equal (fun x => IZR (Z.of_N x))) in E. rewrite !N2Z.inj_mul, !mult_IZR in E.
  pose proof (Q (uts_v d)). pose proof (Q (uts_v d')). field_simplify_eq; [|auto]. lra.
Qed.
Lemma same_value_alike s s' po po' d d' : numeral s d -> numeral s' d' -> operands_from_str s = Ok po -> operands_from_str s' = Ok po' ->
  keeps_integer d -> keeps_integer d' -> same_value d d' -> alike po po'.
Proof.
  intros N N' A A' K K' E.
  destruct (same_value_parts d d' (numeral_proper s d N) (numeral_proper s' d' N') E) as (I & F).
  destruct (numeral_operands s d po N A K) as (On & Oi & Of & Ot). destruct (numeral_operands s' d' po' N' A' K') as (On' & Oi' & Of' & Ot').
  assert (Z : forall a b, (a = 0 <-> b = 0) -> (a =? 0) = (b =? 0)).
  { intros a b H. apply eq_true_iff_eq. now rewrite !N.eqb_eq. }
  split; [|split; [|split]].
  - intros k _. rewrite On, On'. now rewrite (dec_to_float_value 53 1024 _ _ false _ _ _ _ (same_value_real d d' E)).
  - congruence.
  - rewrite Of, Of'. now apply Z.
  - apply Z. now rewrite Ot, Ot', Of, Of'.
Qed.

(** ** The shipped tables *)
Definition spelling_pairs : list (bytes * bytes) :=
  [(bs "1", bs "1.0"); (bs "0", bs "0.0"); (bs "0.1", bs "0.10"); (bs "0.4", bs "0.40")].
Definition differs (f : body) (a b : bytes) : bool :=
  match operands_from_str a, operands_from_str b with
  | Ok x, Ok y => match eval_body f x, eval_body f y with Ok c, Ok c' => negb (cat_eqb c c') | _, _ => false end
  | _, _ => false
  end.
Definition spelling_ok (t : pr_type) (e : langid * body) : bool :=
  if listed (fst e) (spelling_matters t) then existsb (fun '(a, b) => differs (snd e) a b) spelling_pairs
  else body_indifferent (snd e).
Lemma all_spelling t : forallb (spelling_ok t) (prs t) = true.
Proof. destruct t; vm_compute; reflexivity. Qed.
Lemma pair_numerals a b : In (a, b) spelling_pairs ->
  exists d d', numeral a d /\ numeral b d' /\ small d /\ small d' /\ same_value d d'.
Proof.
  assert (D : forall c, 48 <= c <= 57 -> digits [c]) by (intros c H; now repeat constructor).
  assert (D2 : forall c e, 48 <= c <= 57 -> 48 <= e <= 57 -> digits [c; e]) by (intros c e H K; now repeat constructor).
  assert (E : digits []) by constructor.
  intros [H|[H|[H|[H|[]]]]]; injection H as <- <-.
  - exists (mkDecimal 1 []), (mkDecimal 1 [0]).
    split; [exists [], (bs "1"), []; repeat split; auto; [now left|apply D; easy|easy]|].
    split; [exists [], (bs "1"), (bs "0"); repeat split; auto; [now left|apply D; easy|easy|apply D; easy]|].
    repeat split; try reflexivity; easy.
  - exists (mkDecimal 0 []), (mkDecimal 0 [0]).
    split; [exists [], (bs "0"), []; repeat split; auto; [now left|apply D; easy|easy]|].
    split; [exists [], (bs "0"), (bs "0"); repeat split; auto; [now left|apply D; easy|easy|apply D; easy]|].
    repeat split; try reflexivity; easy.
  - exists (mkDecimal 0 [1]), (mkDecimal 0 [1; 0]).
    split; [exists [], (bs "0"), (bs "1"); repeat split; auto; [now left|apply D; easy|easy|apply D; easy]|].
    split; [exists [], (bs "0"), (bs "10"); repeat split; auto; [now left|apply D; easy|easy|apply D2; easy]|].
    repeat split; try reflexivity; easy.
  - exists (mkDecimal 0 [4]), (mkDecimal 0 [4; 0]).
    split; [exists [], (bs "0"), (bs "4"); repeat split; auto; [now left|apply D; easy|easy|apply D; easy]|].
    split; [exists [], (bs "0"), (bs "40"); repeat split; auto; [now left|apply D; easy|easy|apply D2; easy]|].
    repeat split; try reflexivity; easy.
Qed.
Lemma entry_spelling how id t pr : create how id t = Ok pr -> spelling_ok t (id, pr_function pr) = true.
Proof.
  intro C. apply C22_lemma in C as [I _]. pose proof (all_spelling t) as H. rewrite forallb_forall in H. exact (H _ I).
Qed.
Lemma C84_same_lemma how id t pr w s d s' d' : create how id t = Ok pr -> listed id (spelling_matters t) = false ->
  numeral s d -> numeral s' d' -> accepted s -> accepted s' -> keeps_integer d -> keeps_integer d' -> same_value d d' ->
  select w pr (InStr s) = select w pr (InStr s').
Proof.
  intros C L N N' A A' K K' E. apply entry_spelling in C. unfold spelling_ok in C. cbn [fst snd] in C. rewrite L in C.
  apply accepted_iff in A as (po & Q). apply accepted_iff in A' as (po' & Q').
  unfold select. cbn [to_operands]. rewrite Q, Q'. apply body_indifferent_eq; [exact C|].
  now apply (same_value_alike s s' po po' d d').
Qed.
Lemma C84_differ_lemma how id t pr w : create how id t = Ok pr -> listed id (spelling_matters t) = true ->
  exists s d s' d', numeral s d /\ numeral s' d' /\ small d /\ small d' /\ same_value d d' /\
    select w pr (InStr s) <> select w pr (InStr s').
Proof.
  intros C L. apply entry_spelling in C. unfold spelling_ok in C. cbn [fst snd] in C. rewrite L in C.
  apply existsb_exists in C as ((a & b) & I & D). destruct (pair_numerals a b I) as (d & d' & N & N' & S & S' & E).
  exists a, d, b, d'. do 5 (split; [assumption|]). unfold differs in D. unfold select. cbn [to_operands].
  destruct (operands_from_str a) as [x| |]; try discriminate. destruct (operands_from_str b) as [y| |]; try discriminate.
  destruct (eval_body (pr_function pr) x) as [c| |]; try discriminate.
  destruct (eval_body (pr_function pr) y) as [c'| |]; try discriminate.
  intro Q. injection Q as ->. now rewrite (proj2 (cat_eqb_eq c' c') eq_refl) in D.
Qed.
(** appending zeros, without a bound *)
Lemma C84_append_lemma how id t pr w s po : create how id t = Ok pr -> listed id (spelling_matters t) = false ->
  operands_from_str s = Ok po -> In 46 s -> op_f po * 10 < 2 ^ 64 ->
  select w pr (InStr (s ++ [48])%list) = select w pr (InStr s).
Proof.
  intros C L E I B. apply entry_spelling in C. unfold spelling_ok in C. cbn [fst snd] in C. rewrite L in C.
  unfold select. cbn [to_operands]. rewrite (C08_lemma s po E I), E. apply N.ltb_lt in B. rewrite B.
  apply body_indifferent_eq; [exact C|]. split; [reflexivity|]. split; [reflexivity|]. split; [|reflexivity].
  cbn [op_f]. apply eq_true_iff_eq. rewrite !N.eqb_eq. lia.
Qed.
