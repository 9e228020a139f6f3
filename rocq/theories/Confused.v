(** * Which categories are taken for which on integers (for C130) *)
From Coq Require Import Lia.
From Verif Require Import Base LangId GenRs Operands Ast RustExpr Spec Cldr PluralRules Tables ApiProps Conformance ConformanceProps
  Exclusive RepeatProps CycleProps WrongSpec WrongProps WrongCount LangIdFacts.
Open Scope N_scope.

(** the category of CLDR and the one that [select] answers instead *)
Definition confusions (t : pr_type) : list (langid * list (category * category)) :=
  match t with
  | CARDINAL =>
      [(lang "ar", [(FEW, OTHER); (MANY, OTHER)]); (lang "ars", [(FEW, OTHER); (MANY, OTHER)]);
       (lang "be", [(MANY, OTHER); (FEW, OTHER)]); (lang "br", [(FEW, OTHER); (OTHER, FEW)]); (lang "kw", [(TWO, OTHER)]);
       (lang "lt", [(FEW, OTHER); (OTHER, ONE)]); (lang "lv", [(ZERO, OTHER)]); (lang "mo", [(FEW, OTHER)]);
       (lang "mt", [(MANY, OTHER); (FEW, OTHER)]); (lang "prg", [(ZERO, OTHER)]); (lang "ro", [(FEW, OTHER)])]
  | ORDINAL => [(lang "kw", [(ONE, OTHER)])]
  end.

Definition wide (t : pr_type) (id : langid) : N * N :=
  match t with
  | CARDINAL => if langid_eqb id (lang "br") || langid_eqb id (lang "kw") then (20001, 1000000) else (101, 100)
  | ORDINAL => (101, 100)
  end.
(** [existsb] and [cldr_selectb], evaluating no more than needed *)
Fixpoint anyb {A} (p : A -> bool) (l : list A) : bool := match l with [] => false | a :: l => if p a then true else anyb p l end.
Lemma anyb_in {A} (p : A -> bool) l : anyb p l = true -> exists a, In a l /\ p a = true.
Proof.
  induction l as [|a l IH]; cbn; [discriminate|]. destruct (p a) eqn:E; [exists a; auto|]. intros H. destruct (IH H) as (b & I & Q). exists b. auto.
Qed.
Definition quick (rules : list (category * condition)) (d : decimal) (c : category) : bool :=
  if cat_eqb c OTHER then cldr_selectb rules d c
  else anyb (fun cc => if cat_eqb (fst cc) c then uts_condition (snd cc) d else false) rules.
Lemma quick_ok rules d c : quick rules d c = true -> cldr_select rules d c.
Proof.
  unfold quick. destruct (cat_eqb c OTHER) eqn:O; [apply cldr_selectb_iff|]. intros H. apply anyb_in in H as ([c' co] & I & H). cbn [fst snd] in H.
  destruct (cat_eqb c' c) eqn:E; [|discriminate]. apply cat_eqb_eq in E. subst c'. left. split; [intros ->; discriminate|]. eauto.
Qed.
Definition pair_at (b : body) (rules : list (category * condition)) (x : N) (p : category * category) : bool :=
  if cat_eqb (int_select b x) (snd p) then quick rules (mkDecimal x []) (fst p) else false.
(** the wrong integers have one of these remainders *)
Definition hint (t : pr_type) (id : langid) : N * (N -> bool) :=
  match t with
  | CARDINAL =>
      if langid_eqb id (lang "br") then
        (100, fun r => (among (r mod 10) [3; 4] && negb (between 10 r 19 || between 70 r 79 || between 90 r 99)) || among r [19; 79; 99])
      else if langid_eqb id (lang "kw") then (1000, fun r => r =? 0) else (1, fun _ => true)
  | ORDINAL => (1, fun _ => true)
  end.
Definition wrong_of (t : pr_type) (id : langid) : N -> bool :=
  match List.find (fun e => langid_eqb id (fst e)) (wrong_table t) with Some (_, f) => fun x => f x 0 0 | None => fun _ => false end.
Definition seen_at : list N := [11; 13; 18; 19; 22; 26; 23; 102; 103; 111; 112; 119; 101000; 105; 122].
Definition check_confusions (t : pr_type) (e : langid * list (category * category)) : bool :=
  match find_rules t (fst e), List.find (fun e' => langid_eqb (fst e) (fst e')) (prs t) with
  | Some rules, Some (_, b) =>
      let '(B, P) := wide t (fst e) in let f := wrong_of t (fst e) in let '(m, g) := hint t (fst e) in
      let rs := List.filter g (integers 0 m) in
      repeatsb B P rules && (body_bound b <=? B) && (P mod body_period b =? 0) && negb (body_period b =? 0) && negb (P =? 0) && negb (m =? 0) && (B + P <? 2 ^ 40) &&
      check_from (fun q => forallb (fun r => let x := m * q + r in if anyb (pair_at b rules x) (snd e) then true else negb (f x)) rs) (N.to_nat ((B + P) / m + 1)) 0 &&
      forallb (fun p => existsb (fun x => f x && pair_at b rules x p) seen_at) (snd e)
  | _, _ => false
  end.
Lemma confusions_checked t : forallb (check_confusions t) (confusions t) = true.
Proof. destruct t; vm_compute; reflexivity. Qed.
Lemma prs_distinct t : NoDup (List.map fst (prs t)).
Proof.
  assert (A : (fix nd l := match l with [] => true | x :: r => negb (existsb (langid_eqb x) r) && nd r end)
              (List.map fst (prs t)) = true) by (destruct t; vm_compute; reflexivity).
  revert A. generalize (List.map fst (prs t)). induction l as [|x l IH]; intro H; constructor.
  - apply andb_prop in H as [H _]. intro I. apply Bool.negb_true_iff in H.
    assert (existsb (langid_eqb x) l = true); [|congruence].
    apply existsb_exists. exists x. split; [assumption|]. now apply langid_eqb_eq.
  - apply IH. now apply andb_prop in H as [_ H].
Qed.
Lemma keyed_once {V} (l : list (langid * V)) id a b : NoDup (List.map fst l) -> In (id, a) l -> In (id, b) l -> a = b.
Proof.
  induction l as [|[k v] l IH]; [easy|]. cbn [List.map fst In]. intros N. inversion N as [|? ? N1 N2]; subst.
  intros [H1|H1] [H2|H2]; [congruence| | |auto].
  - exfalso. apply N1. injection H1 as -> ->. apply in_map_iff. exists (id, b). auto.
  - exfalso. apply N1. injection H2 as -> ->. apply in_map_iff. exists (id, a). auto.
Qed.
Lemma prs_one t id a b : In (id, a) (prs t) -> In (id, b) (prs t) -> a = b.
Proof. exact (keyed_once (prs t) id a b (prs_distinct t)). Qed.
Lemma hint_ok t id x : wrong_of t id x = true -> snd (hint t id) (x mod fst (hint t id)) = true.
Proof.
  destruct t; [|reflexivity]. unfold hint. destruct (langid_eqb id (lang "br")) eqn:B; [|destruct (langid_eqb id (lang "kw")) eqn:K; [|reflexivity]].
  - apply langid_eqb_eq in B. subst id. change (wrong_of CARDINAL (lang "br") x) with (wrong_br x 0 0). unfold wrong_br, cases. change (0 =? 0) with true. cbv iota beta.
    cbn [fst snd]. intros H. replace ((x mod 100) mod 10) with (x mod 10).
    2:{ symmetry. apply (mod_eq_divide 10 100 (x mod 100) x); [discriminate|discriminate|now exists 10|now apply N.mod_mod]. }
    apply orb_prop in H as [H|H]; [|apply andb_prop in H as [_ H]; rewrite H; apply orb_true_r].
    apply andb_prop in H as [H H2]. apply andb_prop in H as [_ H1]. now rewrite H1, H2.
  - apply langid_eqb_eq in K. subst id. change (wrong_of CARDINAL (lang "kw") x) with (wrong_kw x 0 0). unfold wrong_kw, cases. change (0 =? 0) with true. cbv iota beta.
    cbn [fst snd]. intros H. apply andb_prop in H as [H _]. now apply andb_prop in H as [_ H].
Qed.
Lemma wrong_of_int t id x : wrong_of t id x = wrong_int t id x.
Proof. unfold wrong_of, wrong_int, wrong_number. now destruct (List.find _ (wrong_table t)) as [[k f]|]. Qed.
Lemma small_div a m n : m <> 0 -> a < n -> a / m < n / m + 1.
Proof. intros M L. pose proof (N.div_le_mono a n m M). lia. Qed.
Lemma C130_lemma how id t pr w rules x c c' : create how id t = Ok pr -> In (id, rules) (cldr t) -> x < 2 ^ 64 ->
  select w pr (InUnsigned x) = Ok c -> cldr_select rules (mkDecimal x []) c' -> c <> c' ->
  exists l, In (id, l) (confusions t) /\ In (c', c) l.
Proof.
  intros C I X S R N.
  assert (W : forall y, y < 2 ^ 64 -> (wrong_at t id pr w y <-> ~ cldr_select rules (mkDecimal y []) (int_select (pr_function pr) y))).
  { intros y Y. pose proof (select_int how id t pr w y C Y) as E. split.
    - intros (r & k & I' & S' & N'). rewrite (cldr_unique t id _ _ I' I) in N'. rewrite E in S'. injection S' as <-. exact N'.
    - intros N'. exists rules, (int_select (pr_function pr) y). auto. }
  rewrite (select_int how id t pr w x C X) in S. injection S as S.
  assert (Wx : ~ cldr_select rules (mkDecimal x []) (int_select (pr_function pr) x)).
  { intros R'. apply N. rewrite <- S. apply (C33_unique t id rules (mkDecimal x [])); auto. constructor. }
  assert (J : In id (List.map fst (confusions t))).
  { destruct (in_dec langid_eq_dec id (List.map fst (rates t))) as [J|J].
    - destruct t; exact J.
    - exfalso. apply (C129_none_lemma how id t pr w x C J X). now apply W. }
  apply in_map_iff in J as ([id' l] & E & J). cbn [fst] in E. subst id'. exists l. split; [exact J|].
  pose proof (confusions_checked t) as K. rewrite forallb_forall in K. specialize (K _ J). unfold check_confusions in K. cbn [fst snd] in K.
  rewrite (in_find_rules t id rules I) in K. pose proof C as C0. apply C22_lemma in C0 as [Pb _].
  destruct (List.find _ (prs t)) as [[id2 b]|] eqn:F; [|discriminate]. apply find_some in F as [F E]. cbn [fst] in E. apply langid_eqb_eq in E. subst id2.
  assert (b = pr_function pr) by exact (prs_one t id _ _ F Pb). subst b.
  destruct (wide t id) as [B P]. pose proof (hint_ok t id) as HI. destruct (hint t id) as [m g]. cbn [fst snd] in HI. cbv zeta in K.
  apply andb_prop in K as [K _]. apply andb_prop in K as [K Kc]. apply andb_prop in K as [K Ks]. apply andb_prop in K as [K Km]. apply andb_prop in K as [K Kp].
  apply andb_prop in K as [K Kq]. apply andb_prop in K as [K Kd]. apply andb_prop in K as [Kr Kb].
  apply repeatsb_ok in Kr. apply N.leb_le in Kb. apply N.eqb_eq in Kd. apply Bool.negb_true_iff, N.eqb_neq in Kq, Kp, Km. apply N.ltb_lt in Ks.
  set (y := if x <? B then x else B + (x - B) mod P).
  assert (Y : y < B + P /\ int_select (pr_function pr) y = int_select (pr_function pr) x /\
    forall k, cldr_select rules (mkDecimal y []) k <-> cldr_select rules (mkDecimal x []) k).
  { unfold y. destruct (x <? B) eqn:L; [apply N.ltb_lt in L; split; [lia|split; [reflexivity|reflexivity]]|]. apply N.ltb_ge in L.
    pose proof (N.mod_lt (x - B) P Kp) as M. pose proof (N.div_mod (x - B) P Kp) as D.
    assert (E : (B + (x - B) mod P) mod P = x mod P).
    { replace x with (B + (x - B) mod P + ((x - B) / P) * P) at 2 by lia. symmetry. now apply N.mod_add. }
    split; [lia|]. split.
    - apply (body_cycle (pr_function pr) B P); auto; try lia; [now apply (prs_compile t id)|]. apply N.mod_divide; auto.
    - intros k. apply (repeats_uts B P); auto; lia. }
  destruct Y as (Y1 & Y2 & Y3).
  assert (Y64 : y < 2 ^ 64).
  { apply (N.lt_trans _ (B + P)); [exact Y1|]. apply (N.lt_trans _ (2 ^ 40)); [exact Ks|reflexivity]. }
  clearbody y.
  assert (V : wrong_of t id y = true).
  { rewrite wrong_of_int. apply (wrong_at_iff how t id pr w y C); [exact Y64|]. apply W; [exact Y64|]. rewrite Y2, Y3. exact Wx. }
  pose proof (check_from_ok _ _ _ Kc (y / m) (N.le_0_l _)) as Z. rewrite N2Nat.id in Z. specialize (Z ltac:(pose proof (small_div y m (B + P) Km Y1); lia)).
  cbv beta in Z. rewrite forallb_forall in Z. specialize (Z (y mod m)).
  assert (Q : In (y mod m) (List.filter g (integers 0 m))).
  { apply filter_In. split; [apply integers_in; pose proof (N.mod_lt y m Km); lia|]. now apply HI. }
  specialize (Z Q). cbv zeta in Z. rewrite <- (N.div_mod y m Km) in Z. destruct (anyb _ l) eqn:A; [|rewrite V in Z; discriminate].
  apply anyb_in in A as ([a1 a2] & A & G). unfold pair_at in G. cbn [fst snd] in G. destruct (cat_eqb _ a2) eqn:G2; [|discriminate].
  apply cat_eqb_eq in G2. apply quick_ok in G. rewrite Y2, S in G2. subst a2. apply Y3 in G.
  rewrite (C33_unique t id rules (mkDecimal x []) c' a1 I ltac:(constructor) R G). exact A.
Qed.
(** and every pair of the table is seen *)
Lemma C130_seen_lemma how id t pr w rules l c c' : create how id t = Ok pr -> In (id, rules) (cldr t) -> In (id, l) (confusions t) -> In (c', c) l ->
  c <> c' /\ exists x, x < 2 ^ 17 /\ select w pr (InUnsigned x) = Ok c /\ cldr_select rules (mkDecimal x []) c'.
Proof.
  intros C I J L. pose proof (confusions_checked t) as K. rewrite forallb_forall in K. specialize (K _ J). unfold check_confusions in K. cbn [fst snd] in K.
  rewrite (in_find_rules t id rules I) in K. pose proof C as C0. apply C22_lemma in C0 as [Pb _].
  destruct (List.find _ (prs t)) as [[id2 b]|] eqn:F; [|discriminate]. apply find_some in F as [F E]. cbn [fst] in E. apply langid_eqb_eq in E. subst id2.
  assert (b = pr_function pr) by exact (prs_one t id _ _ F Pb). subst b.
  destruct (wide t id) as [B P]. destruct (hint t id) as [m g]. cbv zeta in K. apply andb_prop in K as [_ K]. rewrite forallb_forall in K. specialize (K _ L).
  apply existsb_exists in K as (x & X & K). apply andb_prop in K as [_ K]. unfold pair_at in K. cbn [fst snd] in K. destruct (cat_eqb _ c) eqn:G2; [|discriminate].
  apply cat_eqb_eq in G2. apply quick_ok in K.
  assert (Xb : x < 2 ^ 17) by (cbn [seen_at In] in X; repeat (destruct X as [<-|X]; [reflexivity|]); destruct X).
  split.
  - clear - J L. destruct t; cbn [confusions In] in J; repeat (destruct J as [J|J]; [injection J as <- <-; cbn [In] in L; repeat (destruct L as [L|L]; [injection L as <- <-; discriminate|]); destruct L|]); destruct J.
  - exists x. split; [exact Xb|]. split; [|exact K]. rewrite (select_int how id t pr w x C); [now rewrite G2|]. eapply N.lt_trans; [exact Xb|reflexivity].
Qed.
