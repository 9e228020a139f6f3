(** * How often integers get a wrong category (for C129) *)
From Coq Require Import Lia.
From Verif Require Import Base LangId GenRs Operands Spec Cldr PluralRules Tables ApiProps Conformance ConformanceProps WrongSpec WrongProps LangIdFacts.
Open Scope N_scope.

(** [k] numbers from [a] up to but not including [b] satisfy [P] *)
Definition counted (P : N -> Prop) (a b k : N) : Prop :=
  exists l, NoDup l /\ (forall x, In x l <-> a <= x < b /\ P x) /\ N.of_nat (List.length l) = k.
(** the category that [select] gives to [x] is not that of the CLDR rules *)
Definition wrong_at (t : pr_type) (id : langid) (pr : plural_rules) (w : ptr_width) (x : N) : Prop :=
  exists rules c, In (id, rules) (cldr t) /\ select w pr (InUnsigned x) = Ok c /\ ~ cldr_select rules (mkDecimal x []) c.

(** from [from] on, [many] of [of] consecutive integers are wrong, and [before] below it *)
Record rate := mkRate { from : N; before : N; many : N; of : N }.
Definition rates (t : pr_type) : list (langid * rate) :=
  match t with
  | CARDINAL =>
      [(lang "ar", mkRate 100 0 97 100); (lang "ars", mkRate 100 0 97 100); (lang "be", mkRate 15 0 81 100);
       (lang "br", mkRate 100 12 17 100); (lang "kw", mkRate 20001 0 20 100000); (lang "lt", mkRate 20 0 73 100);
       (lang "lv", mkRate 20 0 9 100); (lang "mo", mkRate 20 0 18 100); (lang "mt", mkRate 20 0 18 100);
       (lang "prg", mkRate 20 0 9 100); (lang "ro", mkRate 20 0 18 100)]
  | ORDINAL => [(lang "kw", mkRate 100 0 4 20)]
  end.

(** ** Counting *)
Fixpoint up (n : nat) (a : N) : list N := match n with O => [] | S n => a :: up n (a + 1) end.
Definition integers (a n : N) : list N := up (N.to_nat n) a.
Lemma integers_0 a : integers a 0 = [].
Proof. reflexivity. Qed.
Lemma integers_succ a n : integers a (N.succ n) = a :: integers (a + 1) n.
Proof. unfold integers. now rewrite N2Nat.inj_succ. Qed.
Lemma integers_in n : forall a x, In x (integers a n) <-> a <= x < a + n.
Proof.
  induction n as [|n IH] using N.peano_ind; intros a x; [rewrite integers_0; cbn [In]; lia|].
  rewrite integers_succ. cbn [In]. rewrite IH. lia.
Qed.
Lemma integers_nodup n : forall a, NoDup (integers a n).
Proof.
  induction n as [|n IH] using N.peano_ind; intros a; [constructor|]. rewrite integers_succ. constructor; [|apply IH].
  rewrite integers_in. lia.
Qed.
Lemma integers_app n m : forall a, integers a (n + m) = integers a n ++ integers (a + n) m.
Proof.
  induction n as [|n IH] using N.peano_ind; intros a; [now rewrite N.add_0_r|].
  rewrite N.add_succ_l, !integers_succ, IH. cbn [app]. replace (a + 1 + n) with (a + N.succ n) by lia. reflexivity.
Qed.
Definition number (p : N -> bool) (a n : N) : N := N.of_nat (List.length (List.filter p (integers a n))).
Lemma number_app p a n m : number p a (n + m) = number p a n + number p (a + n) m.
Proof. unfold number. rewrite integers_app, filter_app, app_length. lia. Qed.
Lemma number_one p a : number p a 1 = if p a then 1 else 0.
Proof. unfold number. change 1 with (N.succ 0) at 1. rewrite integers_succ, integers_0. cbn [List.filter]. now destruct (p a). Qed.
Lemma number_window p s n : (forall x, s <= x -> p (x + n) = p x) -> forall a, s <= a -> number p a n = number p s n.
Proof.
  intros H a A. replace a with (s + (a - s)) by lia. generalize (a - s). clear a A. intros k.
  induction k as [|k IH] using N.peano_ind; [now rewrite N.add_0_r|]. rewrite <- IH. clear IH.
  assert (K : number p (s + k) (n + 1) = number p (s + k) (1 + n)) by (f_equal; lia).
  rewrite !number_app, !number_one, H in K by lia. replace (s + N.succ k) with (s + k + 1) by lia. destruct (p (s + k)); lia.
Qed.
Lemma number_many p s n k : (forall x, s <= x -> p (x + n) = p x) -> number p 0 (s + k * n) = number p 0 s + k * number p s n.
Proof.
  intros H. induction k as [|k IH] using N.peano_ind; [rewrite N.mul_0_l, N.add_0_r; lia|].
  replace (s + N.succ k * n) with (s + k * n + n) by lia. rewrite number_app, IH, N.add_0_l.
  rewrite (number_window p s n H (s + k * n)) by lia. lia.
Qed.
Lemma counted_number P p a n : (forall x, a <= x < a + n -> (P x <-> p x = true)) -> counted P a (a + n) (number p a n).
Proof.
  intros H. exists (List.filter p (integers a n)). split; [apply NoDup_filter, integers_nodup|]. split; [|reflexivity].
  intros x. rewrite filter_In, integers_in. split; intros [A B]; (split; [exact A|]); now apply H.
Qed.
Lemma counted_unique P a b k k' : counted P a b k -> counted P a b k' -> k = k'.
Proof.
  intros (l & N & I & <-) (l' & N' & I' & <-). f_equal. apply Nat.le_antisymm; apply NoDup_incl_length; auto; intros x X; [apply I', I, X|apply I, I', X].
Qed.

(** ** The wrong integers *)
Definition wrong_int (t : pr_type) (id : langid) (x : N) : bool := wrong_number t id (mkDecimal x []).
Definition rate_ok (t : pr_type) (e : langid * rate) : Prop :=
  (forall x, from (snd e) <= x -> wrong_int t (fst e) (x + of (snd e)) = wrong_int t (fst e) x) /\
  number (wrong_int t (fst e)) 0 (from (snd e)) = before (snd e) /\
  number (wrong_int t (fst e)) (from (snd e)) (of (snd e)) = many (snd e).

Lemma wrong_entry t id f : List.find (fun e => langid_eqb id (fst e)) (wrong_table t) = Some (id, f) ->
  forall x, wrong_int t id x = f x 0 0.
Proof. intros H x. unfold wrong_int, wrong_number. rewrite H. reflexivity. Qed.
Lemma step m q x : m <> 0 -> (x + m * q) mod m = x mod m.
Proof. intros M. rewrite N.mul_comm. now apply N.mod_add. Qed.
Lemma s10 x : (x + 100) mod 10 = x mod 10. Proof. now apply (step 10 10). Qed.
Lemma s100 x : (x + 100) mod 100 = x mod 100. Proof. now apply (step 100 1). Qed.
Lemma s20 x : (x + 20) mod 20 = x mod 20. Proof. now apply (step 20 1). Qed.
Lemma k1000 x : (x + 100000) mod 1000 = x mod 1000. Proof. now apply (step 1000 100). Qed.
Lemma k100000 x : (x + 100000) mod 100000 = x mod 100000. Proof. now apply (step 100000 1). Qed.
Lemma past a b x : a <= x -> a <=? x + b = true. Proof. intros. apply N.leb_le. lia. Qed.
Lemma past0 a x : a <= x -> a <=? x = true. Proof. intros. now apply N.leb_le. Qed.
Lemma over a b x : a < x -> a <? x + b = true. Proof. intros. apply N.ltb_lt. lia. Qed.
Lemma over0 a x : a < x -> a <? x = true. Proof. intros. now apply N.ltb_lt. Qed.
Lemma number_ext p q a n : (forall x, p x = q x) -> number p a n = number q a n.
Proof. intros H. unfold number. now rewrite (filter_ext p q H). Qed.
Lemma rate_by t e f : List.find (fun e' => langid_eqb (fst e) (fst e')) (wrong_table t) = Some (fst e, f) ->
  (forall x, from (snd e) <= x -> f (x + of (snd e)) 0 0 = f x 0 0) ->
  number (fun x => f x 0 0) 0 (from (snd e)) = before (snd e) ->
  number (fun x => f x 0 0) (from (snd e)) (of (snd e)) = many (snd e) -> rate_ok t e.
Proof.
  intros F H A B. pose proof (wrong_entry t _ f F) as K. split; [|split].
  - intros x X. rewrite !K. now apply H.
  - now rewrite (number_ext _ _ _ _ K).
  - now rewrite (number_ext _ _ _ _ K).
Qed.
Ltac one f := apply Forall_cons; [apply (rate_by _ _ f);
  [vm_compute; reflexivity
  |cbn [fst snd from of]; intros x X; unfold f, cases; change (0 =? 0) with true; cbv iota beta;
   rewrite ?s10, ?s100, ?s20, ?k1000, ?k100000;
   repeat match goal with
   | |- context [?a <=? x + ?b] => rewrite (past a b x) by lia
   | |- context [?a <=? x] => rewrite (past0 a x) by lia
   | |- context [?a <? x + ?b] => rewrite (over a b x) by lia
   | |- context [?a <? x] => rewrite (over0 a x) by lia
   end; reflexivity
  |vm_compute; reflexivity|vm_compute; reflexivity]|].
Lemma rates_ok t : Forall (rate_ok t) (rates t).
Proof.
  destruct t; cbn [rates].
  - one wrong_ar. one wrong_ar. one wrong_be. one wrong_br. one wrong_kw. one wrong_lt. one wrong_lv. one wrong_ro. one wrong_mt. one wrong_lv. one wrong_ro.
    apply Forall_nil.
  - one wrong_kw_ordinal. apply Forall_nil.
Qed.
(** the locales without an entry have no wrong integer *)
Lemma never_wrong t id : ~ In id (List.map fst (rates t)) -> forall x, wrong_int t id x = false.
Proof.
  intros N x. unfold wrong_int, wrong_number. destruct (List.find _ _) as [[k f]|] eqn:F; [|reflexivity].
  apply find_some in F as [F E]. cbn [fst] in E. apply langid_eqb_eq in E. subst k.
  destruct t; cbn [wrong_table In] in F; repeat (destruct F as [F|F]; [injection F as <- <-; try reflexivity; exfalso; apply N; cbn [rates List.map fst In]; tauto|]); easy.
Qed.

Lemma wrong_at_iff how t id pr w x : create how id t = Ok pr -> x < 2 ^ 64 -> (wrong_at t id pr w x <-> wrong_int t id x = true).
Proof.
  intros C X. destruct (wrong_exact_unsigned how id t pr w x C X) as (rules & c & I & S & E). unfold wrong_int. split.
  - intros (rules' & c' & I' & S' & N). rewrite (cldr_unique t id _ _ I' I) in N. rewrite S in S'. injection S' as <-.
    destruct (wrong_number t id (mkDecimal x [])); [reflexivity|]. exfalso. apply N. now apply E.
  - intros W. exists rules, c. split; [exact I|]. split; [exact S|]. intros H. apply E in H. congruence.
Qed.
Lemma C129_lemma how id t pr w r : create how id t = Ok pr -> In (id, r) (rates t) ->
  (forall a, from r <= a -> a + of r <= 2 ^ 64 -> counted (wrong_at t id pr w) a (a + of r) (many r)) /\
  (forall k, from r + k * of r <= 2 ^ 64 -> counted (wrong_at t id pr w) 0 (from r + k * of r) (before r + k * many r)).
Proof.
  intros C I. pose proof (rates_ok t) as R. rewrite Forall_forall in R. destruct (R _ I) as (P & B & M). cbn [fst snd] in *. clear R. split.
  - intros a A L. rewrite <- M, <- (number_window _ _ _ P a A). apply counted_number. intros x X. apply (wrong_at_iff how); [exact C|lia].
  - intros k L. rewrite <- M, <- B, <- (number_many _ _ _ k P). apply (counted_number _ _ 0). intros x X. apply (wrong_at_iff how); [exact C|lia].
Qed.
Lemma C129_none_lemma how id t pr w x : create how id t = Ok pr -> ~ In id (List.map fst (rates t)) -> x < 2 ^ 64 -> ~ wrong_at t id pr w x.
Proof. intros C N X W. apply (wrong_at_iff how) in W; auto. rewrite never_wrong in W; [discriminate|exact N]. Qed.
