(** * Lemmas behind C83 *)
From Coq Require Import Lia Floats.SpecFloat.
From Verif Require Import Base F64 Operands Ast LangId GenRs RustExpr PluralRules Tables ApiProps Represents BehaviourSpec.
Open Scope N_scope.

(** ** The closures as functions of an integer *)
Definition int_num (y : num) (x : N) : N :=
  match y with NField ON | NField OI => x | NMod OI m => x mod m | _ => 0 end.
Definition lit_value (l : lit) : N := match l with LInt k | LFloat k => k end.
Fixpoint int_expr (e : bexpr) (x : N) : bool :=
  match e with
  | BCmpNL y op l => cmp_int op (int_num y x) (lit_value l)
  | BCmpLN l op y => cmp_int op (lit_value l) (int_num y x)
  | BContains lo hi y => (lo <=? int_num y x) && (int_num y x <=? hi)
  | BNot b => negb (int_expr b x)
  | BAnd a b => int_expr a x && int_expr b x
  | BOr a b => int_expr a x || int_expr b x
  end.
Fixpoint int_arms (l : list (bexpr * category)) (els : category) (x : N) : category :=
  match l with [] => els | (e, c) :: r => if int_expr e x then c else int_arms r els x end.
Definition int_select (b : body) (x : N) : category := int_arms (b_arms b) (b_else b) x.

(** comparisons with [n] are only [==] and [!=] with small literals *)
Fixpoint int_plain (e : bexpr) : bool :=
  match e with
  | BCmpNL (NField ON) (CEq | CNe) (LFloat k) => k <? 2 ^ 53
  | BCmpNL (NField ON) _ _ => false
  | BCmpLN _ _ _ => false
  | BNot b => int_plain b
  | BAnd a b | BOr a b => int_plain a && int_plain b
  | _ => true
  end.

Lemma int_num_ok y x : num_ok y = true -> is_float y = false ->
  eval_int y (operands_from_unsigned x) = Ok (int_num y x).
Proof.
  destruct y as [[]|[] m]; cbn [num_ok is_float]; intros H F; try discriminate; try reflexivity.
  all: apply andb_prop in H as [H _]; apply Bool.negb_true_iff in H; unfold eval_int; cbn [int_field unwrap rbind];
    rewrite H; apply N.eqb_neq in H; cbn [operands_from_unsigned op_i op_v op_w op_f op_t]; try reflexivity.
  all: now rewrite N.mod_0_l.
Qed.
Lemma int_expr_ok e x : x < 2 ^ 64 -> compiles e = true -> int_plain e = true ->
  eval e (operands_from_unsigned x) = Ok (int_expr e x).
Proof.
  intro X. induction e as [y op l|l op y|lo hi y|e IH|e1 IH1 e2 IH2|e1 IH1 e2 IH2]; cbn [compiles int_plain]; intros C P.
  - apply andb_prop in C as [C L]. cbn [eval]. destruct (is_float y) eqn:F.
    + destruct y as [[]|]; try discriminate. destruct l as [k|k]; [now destruct op|].
      assert (K : k < 2 ^ 53) by (apply N.ltb_lt; now destruct op). cbn [lit_float rbind int_expr int_num lit_value].
      destruct (compares_int x X k K) as (E & _). rewrite N.mul_1_r in E.
      cbn [operands_from_unsigned op_n]. destruct op; try discriminate; cbn [cmp_float cmp_int]; now rewrite E.
    + destruct l as [k|k]; [|now destruct y as [[]|]]. unfold lit_ok in L. rewrite F in L. cbn [negb andb] in L.
      unfold lit_int. rewrite L. cbn [rbind]. rewrite (int_num_ok y x C F). reflexivity.
  - discriminate.
  - rewrite !andb_true_iff in C. destruct C as [[[C F] L] H]. apply Bool.negb_true_iff in F.
    cbn [eval]. unfold lit_int. rewrite L, H. cbn [rbind]. rewrite (int_num_ok y x C F). reflexivity.
  - cbn [eval]. rewrite IH by assumption. reflexivity.
  - apply andb_prop in C as [C1 C2]. apply andb_prop in P as [P1 P2]. cbn [eval]. rewrite IH1, IH2 by assumption.
    cbn [rbind int_expr]. now destruct (int_expr e1 x).
  - apply andb_prop in C as [C1 C2]. apply andb_prop in P as [P1 P2]. cbn [eval]. rewrite IH1, IH2 by assumption.
    cbn [rbind int_expr]. now destruct (int_expr e1 x).
Qed.
Definition body_plain (b : body) : bool := forallb (fun '(e, _) => int_plain e) (b_arms b).
Lemma prs_plain t id b : In (id, b) (prs t) -> body_plain b = true.
Proof.
  assert (H : forallb (fun e => body_plain (snd e)) (prs t) = true) by (destruct t; vm_compute; reflexivity).
  intro I. rewrite forallb_forall in H. exact (H _ I).
Qed.
Lemma int_select_ok b x : x < 2 ^ 64 -> body_compiles b = true -> body_plain b = true ->
  eval_body b (operands_from_unsigned x) = Ok (int_select b x).
Proof.
  intro X. unfold body_compiles, body_plain, eval_body, int_select.
  induction (b_arms b) as [|[e c] r IH]; cbn [forallb]; intros C P; [reflexivity|].
  apply andb_prop in C as [C1 C2]. apply andb_prop in P as [P1 P2]. cbn [eval_arms int_arms].
  rewrite int_expr_ok by assumption. cbn [rbind]. destruct (int_expr e x); [reflexivity|now apply IH].
Qed.
Lemma select_int how id t pr w x : create how id t = Ok pr -> x < 2 ^ 64 ->
  select w pr (InUnsigned x) = Ok (int_select (pr_function pr) x).
Proof.
  intros C X. apply C22_lemma in C as [I _]. unfold select. cbn [to_operands].
  apply int_select_ok; [exact X|now apply (prs_compile t id)|now apply (prs_plain t id)].
Qed.

(** ** Bound and period that can be read off the text *)
Fixpoint text_bound (e : bexpr) : N :=
  match e with
  | BCmpNL (NField _) _ l | BCmpLN l _ (NField _) => N.succ (lit_value l)
  | BContains lo hi (NField _) => N.succ (N.max lo hi)
  | BNot b => text_bound b
  | BAnd a b | BOr a b => N.max (text_bound a) (text_bound b)
  | _ => 0
  end.
Fixpoint text_period (e : bexpr) : N :=
  match e with
  | BCmpNL (NMod OI m) _ _ | BCmpLN _ _ (NMod OI m) | BContains _ _ (NMod OI m) => m
  | BNot b => text_period b
  | BAnd a b | BOr a b => N.lcm (text_period a) (text_period b)
  | _ => 1
  end.
Lemma mod_eq_divide m p x y : m <> 0 -> p <> 0 -> (m | p) -> x mod p = y mod p -> x mod m = y mod m.
Proof.
  intros M P [k ->] E. rewrite (N.div_mod x (k * m)), (N.div_mod y (k * m)), E by exact P.
  assert (H : forall q r, (k * m * q + r) mod m = r mod m).
  { intros q r. rewrite N.add_comm, (N.mul_comm k m), <- N.mul_assoc, (N.mul_comm m). now apply N.mod_add. }
  now rewrite !H.
Qed.
Lemma text_cycle e B P x y : compiles e = true -> P <> 0 -> text_bound e <= B -> (text_period e | P) ->
  B <= x -> B <= y -> x mod P = y mod P -> int_expr e x = int_expr e y.
Proof.
  intros C P0 HB HP X Y E.
  assert (Q : forall o m, o = OI -> num_ok (NMod o m) = true -> (m | P) -> x mod m = y mod m).
  { intros o m -> K D. cbn in K. apply andb_prop in K as [K _]. apply Bool.negb_true_iff, N.eqb_neq in K.
    exact (mod_eq_divide m P x y K P0 D E). }
  induction e as [n op l|l op n|lo hi n|e IH|e1 IH1 e2 IH2|e1 IH1 e2 IH2]; cbn [compiles text_bound text_period int_expr] in *.
  - apply andb_prop in C as [C _].
    destruct n as [o|[] m]; cbn [int_num]; try reflexivity.
    + destruct o; cbn [int_num]; try reflexivity.
      all: destruct op; cbn [cmp_int];
        repeat match goal with |- context [?a =? ?b] => destruct (N.eqb_spec a b) | |- context [?a <=? ?b] => destruct (N.leb_spec a b)
                          | |- context [?a <? ?b] => destruct (N.ltb_spec a b) end; try reflexivity; lia.
    + now rewrite (Q OI m eq_refl C HP).
  - apply andb_prop in C as [C _].
    destruct n as [o|[] m]; cbn [int_num]; try reflexivity.
    + destruct o; cbn [int_num]; try reflexivity.
      all: destruct op; cbn [cmp_int];
        repeat match goal with |- context [?a =? ?b] => destruct (N.eqb_spec a b) | |- context [?a <=? ?b] => destruct (N.leb_spec a b)
                          | |- context [?a <? ?b] => destruct (N.ltb_spec a b) end; try reflexivity; lia.
    + now rewrite (Q OI m eq_refl C HP).
  - rewrite !andb_true_iff in C. destruct C as [[[C _] _] _].
    destruct n as [o|[] m]; cbn [int_num]; try reflexivity.
    + destruct o; cbn [int_num]; try reflexivity.
      all: repeat match goal with |- context [?a <=? ?b] => destruct (N.leb_spec a b) end; try reflexivity; lia.
    + now rewrite (Q OI m eq_refl C HP).
  - now rewrite IH.
  - apply andb_prop in C as [C1 C2]. rewrite IH1, IH2; auto; try lia.
    + eapply N.divide_trans; [apply N.divide_lcm_r|exact HP].
    + eapply N.divide_trans; [apply N.divide_lcm_l|exact HP].
  - apply andb_prop in C as [C1 C2]. rewrite IH1, IH2; auto; try lia.
    + eapply N.divide_trans; [apply N.divide_lcm_r|exact HP].
    + eapply N.divide_trans; [apply N.divide_lcm_l|exact HP].
Qed.
Definition body_bound (b : body) : N := fold_right (fun '(e, _) a => N.max (text_bound e) a) 0 (b_arms b).
Definition body_period (b : body) : N := fold_right (fun '(e, _) a => N.lcm (text_period e) a) 1 (b_arms b).
Lemma body_cycle b B P x y : body_compiles b = true -> P <> 0 -> body_bound b <= B -> (body_period b | P) ->
  B <= x -> B <= y -> x mod P = y mod P -> int_select b x = int_select b y.
Proof.
  unfold body_compiles, body_bound, body_period, int_select. intros C P0 HB HP X Y E.
  induction (b_arms b) as [|[e c] r IH]; cbn [forallb fold_right int_arms] in *; [reflexivity|].
  apply andb_prop in C as [C1 C2].
  rewrite (text_cycle e B P x y C1 P0); auto; [|lia|eapply N.divide_trans; [apply N.divide_lcm_l|exact HP]].
  rewrite IH; auto; [lia|eapply N.divide_trans; [apply N.divide_lcm_r|exact HP]].
Qed.

(** ** Checking one closure *)
Fixpoint check_from (p : N -> bool) (n : nat) (x : N) : bool :=
  match n with O => true | S k => p x && check_from p k (N.succ x) end.
Lemma check_from_ok p n x : check_from p n x = true -> forall y, x <= y -> y < x + N.of_nat n -> p y = true.
Proof.
  revert x. induction n as [|n IH]; intros x H y L U; [lia|]. cbn in H. apply andb_prop in H as [H1 H2].
  destruct (N.eq_dec x y) as [->|]; [exact H1|]. apply (IH (N.succ x) H2); lia.
Qed.
Definition agree (b : body) (x y : N) : bool := cat_eqb (int_select b x) (int_select b y).
Definition check_cycle (b : body) (B P w2 w5 : N) : bool :=
  let Bt := N.max B (body_bound b) in
  let Pt := body_period b in
  negb (P =? 0) && negb (Pt =? 0) && (1000000 mod P =? 0) &&
  check_from (fun x => agree b x (x + P)) (N.to_nat (Bt + (if P mod Pt =? 0 then 0 else Pt) - B)) B &&
  ((B =? 0) || negb (agree b (B - 1) (B - 1 + P))) &&
  (negb (P mod 2 =? 0) || ((B <=? w2) && (w2 <? 2 ^ 40) && negb (agree b w2 (w2 + P / 2)))) &&
  (negb (P mod 5 =? 0) || ((B <=? w5) && (w5 <? 2 ^ 40) && negb (agree b w5 (w5 + P / 5)))).

Lemma agree_eq b x y : agree b x y = true <-> int_select b x = int_select b y.
Proof. apply cat_eqb_eq. Qed.
Lemma step_cycle b B P : body_compiles b = true -> P <> 0 -> body_period b <> 0 ->
  check_from (fun x => agree b x (x + P))
    (N.to_nat (N.max B (body_bound b) + (if P mod body_period b =? 0 then 0 else body_period b) - B)) B = true ->
  forall x, B <= x -> int_select b x = int_select b (x + P).
Proof.
  intros C P0 T0 H x X. set (Bt := N.max B (body_bound b)) in *. set (Pt := body_period b) in *.
  destruct (N.eqb_spec (P mod Pt) 0) as [D|D].
  - destruct (N.lt_ge_cases x Bt) as [L|G].
    + apply agree_eq. apply (check_from_ok (fun x => agree b x (x + P)) _ _ H x X). lia.
    + apply (body_cycle b Bt P); auto; try lia; [apply N.mod_divide; auto|].
      symmetry. replace (x + P) with (x + 1 * P) by lia. now apply N.mod_add.
  - destruct (N.lt_ge_cases x (Bt + Pt)) as [L|G].
    + apply agree_eq. apply (check_from_ok (fun x => agree b x (x + P)) _ _ H x X). lia.
    + set (y := Bt + (x - Bt) mod Pt). pose proof (N.mod_lt (x - Bt) Pt T0) as M.
      assert (EY : x = y + ((x - Bt) / Pt) * Pt).
      { unfold y. pose proof (N.div_mod (x - Bt) Pt T0). lia. }
      assert (E : forall k, (x + k) mod Pt = (y + k) mod Pt).
      { intro k. rewrite EY at 1. replace (y + (x - Bt) / Pt * Pt + k) with (y + k + (x - Bt) / Pt * Pt) by lia.
        now apply N.mod_add. }
      rewrite (body_cycle b Bt Pt x y), (body_cycle b Bt Pt (x + P) (y + P)); auto; try apply N.divide_refl; try lia.
      * apply agree_eq. apply (check_from_ok (fun x => agree b x (x + P)) _ _ H y); lia.
      * specialize (E 0). now rewrite !N.add_0_r in E.
Qed.
Lemma steps_cycle b B P : (forall x, B <= x -> int_select b x = int_select b (x + P)) ->
  forall k x, B <= x -> int_select b x = int_select b (x + k * P).
Proof.
  intros S k. induction k as [|k IH] using N.peano_ind; intros x X; [now rewrite N.mul_0_l, N.add_0_r|].
  rewrite (IH x X), (S (x + k * P)) by lia. f_equal. lia.
Qed.
Lemma cycle_of_steps b B P : P <> 0 -> (forall x, B <= x -> int_select b x = int_select b (x + P)) ->
  forall x y, B <= x -> B <= y -> x mod P = y mod P -> int_select b x = int_select b y.
Proof.
  intros P0 S.
  assert (W : forall x y, B <= x -> x <= y -> x mod P = y mod P -> int_select b x = int_select b y).
  { intros x y X L E. pose proof (N.div_mod x P P0). pose proof (N.div_mod y P P0).
    assert (D : x / P <= y / P) by (apply N.div_le_mono; auto).
    replace y with (x + (y / P - x / P) * P) by nia. now apply steps_cycle with (B := B). }
  intros x y X Y E. destruct (N.le_ge_cases x y); [now apply W|symmetry; now apply W].
Qed.

(** ** The least bound and period *)
Lemma prime_part k : (k | 1000000) -> k <> 1 -> (2 | k) \/ (5 | k).
Proof.
  intros D K.
  destruct (N.eq_dec (k mod 2) 0) as [E|E]; [left; now apply N.mod_divide|].
  destruct (N.eq_dec (k mod 5) 0) as [F|F]; [right; now apply N.mod_divide|].
  exfalso. apply K.
  assert (G2 : N.gcd k 2 = 1).
  { pose proof (N.gcd_divide_l k 2).
    assert (LE : N.gcd k 2 <= 2) by (apply N.divide_pos_le; [lia|apply N.gcd_divide_r]).
    assert (NE : N.gcd k 2 <> 2) by (intro G; apply E; apply N.mod_divide; [easy|]; now rewrite <- G at 1).
    assert (NZ : N.gcd k 2 <> 0) by (intro Z; apply N.gcd_eq_0_r in Z; lia). lia. }
  assert (G5 : N.gcd k 5 = 1).
  { pose proof (N.gcd_divide_l k 5). pose proof (N.gcd_divide_r k 5) as DR.
    assert (LE : N.gcd k 5 <= 5) by (apply N.divide_pos_le; [lia|exact DR]).
    assert (NE : N.gcd k 5 <> 5) by (intro G; apply F; apply N.mod_divide; [easy|]; now rewrite <- G at 1).
    apply N.mod_divide in DR; [|intro Z; apply N.gcd_eq_0_r in Z; lia].
    destruct (N.eq_dec (N.gcd k 5) 0) as [Z|]; [apply N.gcd_eq_0_r in Z; lia|].
    destruct (N.eq_dec (N.gcd k 5) 1) as [|]; [assumption|].
    assert (C : N.gcd k 5 = 2 \/ N.gcd k 5 = 3 \/ N.gcd k 5 = 4) by lia.
    destruct C as [C|[C|C]]; rewrite C in DR; discriminate DR. }
  change 1000000 with (2 * (2 * (2 * (2 * (2 * (2 * (5 * (5 * (5 * (5 * (5 * (5 * 1)))))))))))) in D.
  repeat (first [apply (N.gauss k 2) in D; [|exact G2] | apply (N.gauss k 5) in D; [|exact G5]]).
  now apply N.divide_1_r.
Qed.

Lemma reach P P' g : P <> 0 -> P' <> 0 -> (N.gcd P P' | g) -> exists a, a < P /\ (a * P') mod P = g mod P.
Proof.
  intros P0 Q0 D.
  destruct (N.gcd_bezout P P') as [(a & b & E)|(a & b & E)].
  - (* a * P = gcd + b * P' : use -b *)
    destruct D as [k ->].
    exists ((k * b * (P - 1)) mod P). split; [now apply N.mod_lt|].
    rewrite N.mul_mod_idemp_l by exact P0.
    assert (Z : k * b * (P - 1) * P' + (k * a) * P = k * N.gcd P P' + (k * b * P') * P) by nia.
    assert (M : forall u v s r, u + s * P = v + r * P -> u mod P = v mod P).
    { intros u v s r H. rewrite <- (N.mod_add u s P P0), H. now apply N.mod_add. }
    exact (M _ _ _ _ Z).
  - destruct D as [k ->].
    exists ((k * a) mod P). split; [now apply N.mod_lt|].
    rewrite N.mul_mod_idemp_l by exact P0.
    replace (k * a * P') with (k * N.gcd P P' + (k * b) * P) by nia. now apply N.mod_add.
Qed.

Definition witnesses (t : pr_type) : list (string * (N * N)) :=
  match t with
  | CARDINAL => [("ceb", (1, 2)); ("fil", (1, 2)); ("tl", (1, 2)); ("he", (15, 18)); ("iw", (15, 18)); ("lt", (16, 19));
      ("gv", (0, 0)); ("bs", (11, 11)); ("dsb", (1, 1)); ("hr", (11, 11)); ("hsb", (1, 1)); ("is", (11, 11));
      ("mk", (11, 11)); ("ru", (11, 11)); ("sh", (11, 11)); ("sl", (1, 1)); ("sr", (11, 11)); ("uk", (11, 11));
      ("pl", (12, 12)); ("be", (61, 91)); ("lv", (61, 91)); ("prg", (61, 91)); ("br", (500000, 800000));
      ("kw", (100000, 100000))]
  | ORDINAL => [("kk", (1, 4)); ("tk", (11, 14)); ("be", (12, 12)); ("en", (11, 11)); ("mk", (11, 11)); ("sv", (11, 11));
      ("uk", (13, 13)); ("ka", (2, 2)); ("sq", (14, 14)); ("kw", (105, 85)); ("az", (500, 800))]
  end%string.
Definition witness (t : pr_type) (id : langid) : N * N :=
  match List.find (fun '(s, _) => listed id s) (witnesses t) with Some (_, w) => w | None => (0, 0) end.
Definition check_entry (t : pr_type) (e : langid * body) : bool :=
  match cycle t (fst e) with
  | Some (B, P) => let '(w2, w5) := witness t (fst e) in (B <? 2 ^ 40) && check_cycle (snd e) B P w2 w5
  | None => false
  end.
Lemma all_checked t : forallb (check_entry t) (prs t) = true.
Proof. destruct t; vm_compute; reflexivity. Qed.

Lemma no_smaller_period b P P' B' q w : P <> 0 -> P' <> 0 -> P' < 2 ^ 40 -> B' < 2 ^ 40 -> P <= 1000000 ->
  1 < q -> (q | P) -> (N.gcd P P' | P / q) -> w < 2 ^ 40 ->
  (forall k, int_select b w = int_select b (w + k * P)) ->
  (forall k, int_select b (w + P / q) = int_select b (w + P / q + k * P)) ->
  (forall x y, x < 2 ^ 64 -> y < 2 ^ 64 -> B' <= x -> B' <= y -> x mod P' = y mod P' -> int_select b x = int_select b y) ->
  int_select b w = int_select b (w + P / q).
Proof.
  intros P0 Q0 U V PM Q D G W S1 S2 H.
  destruct (reach P P' (P / q) P0 Q0 G) as (a & A & E).
  assert (PQ : P / q < P) by (apply N.div_lt; lia). rewrite (N.mod_small (P / q)) in E by exact PQ.
  set (x := w + (2 ^ 40) * P).
  assert (AP : a * P' <= 1000000 * 2 ^ 40) by nia.
  rewrite (S1 (2 ^ 40)). fold x. rewrite (H x (x + a * P')).
  - pose proof (N.div_mod (a * P') P P0) as DM. rewrite E in DM.
    rewrite (S2 (2 ^ 40 + a * P' / P)). f_equal. unfold x. nia.
  - unfold x. lia.
  - unfold x. lia.
  - unfold x. lia.
  - unfold x. lia.
  - symmetry. now apply N.mod_add.
Qed.

Lemma least_period b B P w2 w5 : check_cycle b B P w2 w5 = true -> body_compiles b = true -> B < 2 ^ 40 ->
  (forall x y, B <= x -> B <= y -> x mod P = y mod P -> int_select b x = int_select b y) /\
  (forall B' P', P' <> 0 -> B' < 2 ^ 40 -> P' < 2 ^ 40 ->
    (forall x y, x < 2 ^ 64 -> y < 2 ^ 64 -> B' <= x -> B' <= y -> x mod P' = y mod P' -> int_select b x = int_select b y) ->
    B <= B' /\ (P | P')).
Proof.
  unfold check_cycle. cbv zeta. rewrite !andb_true_iff, !orb_true_iff, !Bool.negb_true_iff.
  intros ((((((P0 & T0) & M) & CH) & LB) & W2) & W5) C BB. apply N.eqb_neq in P0, T0. apply N.eqb_eq in M.
  pose proof (step_cycle b B P C P0 T0 CH) as S. pose proof (cycle_of_steps b B P P0 S) as A. split; [exact A|].
  intros B' P' Q0 U V H. pose proof (steps_cycle b B P S) as ST.
  assert (PD : (P | 1000000)) by now apply N.mod_divide.
  assert (PM : P <= 1000000) by (apply N.divide_pos_le; [lia|exact PD]).
  split.
  - destruct (N.le_gt_cases B B') as [L|G]; [exact L|exfalso].
    destruct LB as [LB|LB]; [apply N.eqb_eq in LB; lia|].
    assert (E : int_select b (B - 1) = int_select b (B - 1 + P)); [|apply agree_eq in E; congruence].
    rewrite (H (B - 1) (B - 1 + P * P')).
    + symmetry. apply A; [lia|nia|]. replace (B - 1 + P) with (B - 1 + 1 * P) by lia.
      rewrite (N.mul_comm P P'), !N.mod_add by exact P0. reflexivity.
    + nia.
    + nia.
    + lia.
    + nia.
    + symmetry. now apply N.mod_add.
  - assert (G0 : N.gcd P P' <> 0) by (intro Z; apply N.gcd_eq_0_l in Z; contradiction).
    destruct (N.gcd_divide_l P P') as [k K].
    destruct (N.eq_dec k 1) as [->|K1].
    { rewrite N.mul_1_l in K. rewrite K at 1. apply N.gcd_divide_r. }
    exfalso.
    assert (KD : (k | 1000000)) by (eapply N.divide_trans; [|exact PD]; exists (N.gcd P P'); lia).
    assert (Z : forall q w, 1 < q -> (q | k) -> B <= w -> w < 2 ^ 40 -> int_select b w = int_select b (w + P / q)).
    { intros q w Q1 [j J] BW WW.
      assert (PQ : P / q = j * N.gcd P P').
      { transitivity (j * N.gcd P P' * q / q); [f_equal; nia|apply N.div_mul; lia]. }
      apply (no_smaller_period b P P' B' q w); auto.
      - exists (j * N.gcd P P'). nia.
      - exists j. exact PQ.
      - intro i. apply ST. lia. }
    assert (DV : forall q, (q | k) -> (q | P)).
    { intros q [j J]. exists (j * N.gcd P P'). nia. }
    destruct (prime_part k KD K1) as [D|D].
    + destruct W2 as [W2|W2].
      * apply N.eqb_neq in W2. apply W2, N.mod_divide; [easy|now apply DV].
      * rewrite !andb_true_iff, Bool.negb_true_iff in W2. destruct W2 as [[W2 W3] W4]. apply N.leb_le in W2. apply N.ltb_lt in W3.
        specialize (Z 2 w2 eq_refl D W2 W3). apply agree_eq in Z. congruence.
    + destruct W5 as [W5|W5].
      * apply N.eqb_neq in W5. apply W5, N.mod_divide; [easy|now apply DV].
      * rewrite !andb_true_iff, Bool.negb_true_iff in W5. destruct W5 as [[W5 W3] W4]. apply N.leb_le in W5. apply N.ltb_lt in W3.
        specialize (Z 5 w5 eq_refl D W5 W3). apply agree_eq in Z. congruence.
Qed.

Lemma C83_lemma how id t pr w : create how id t = Ok pr ->
  exists B P, cycle t id = Some (B, P) /\
  (forall x y, x < 2 ^ 64 -> y < 2 ^ 64 -> B <= x -> B <= y -> x mod P = y mod P ->
     select w pr (InUnsigned x) = select w pr (InUnsigned y)) /\
  (forall B' P', 0 < P' -> B' < 2 ^ 40 -> P' < 2 ^ 40 ->
     (forall x y, x < 2 ^ 64 -> y < 2 ^ 64 -> B' <= x -> B' <= y -> x mod P' = y mod P' ->
        select w pr (InUnsigned x) = select w pr (InUnsigned y)) ->
     B <= B' /\ (P | P')).
Proof.
  intro C. pose proof (C22_lemma how id t pr C) as [I _].
  pose proof (all_checked t) as K. rewrite forallb_forall in K. specialize (K _ I). unfold check_entry in K. cbn [fst snd] in K.
  destruct (cycle t id) as [[B P]|]; [|discriminate]. destruct (witness t id) as [w2 w5].
  apply andb_prop in K as [KB K]. apply N.ltb_lt in KB.
  destruct (least_period _ _ _ _ _ K (prs_compile t id _ I) KB) as [A L].
  exists B, P. split; [reflexivity|]. split.
  - intros x y X Y BX BY E. rewrite !(select_int how id t pr w) by assumption. f_equal. now apply A.
  - intros B' P' Q U V H. apply L; auto; [lia|]. intros x y X Y BX BY E. specialize (H x y X Y BX BY E).
    rewrite !(select_int how id t pr w) in H by assumption. now injection H.
Qed.
