(** * Lemmas for C21-C28: create, get_locales, select *)
From Coq Require Import Lia Sorted.
From Verif Require Import Base F64 Operands LangId GenRs RustExpr PluralRules Tables Json Ast Cldr
  LangIdFacts LangOrder SearchFacts.
Open Scope N_scope.

(** ** Sortedness *)
Fixpoint lt_sorted (l : list langid) : bool :=
  match l with
  | a :: ((b :: _) as r) => match langid_compare a b with Lt => lt_sorted r | _ => false end
  | _ => true
  end.
Lemma lt_sorted_sound l : lt_sorted l = true -> StronglySorted lt_id l.
Proof.
  intro H. apply Sorted_StronglySorted.
  - intros a b c. apply langid_compare_lt_trans.
  - induction l as [|a [|b r] IH]; [constructor|repeat constructor|].
    cbn [lt_sorted] in H. destruct (langid_compare a b) eqn:E; try discriminate.
    constructor; [now apply IH|]. now constructor.
Qed.

Lemma prs_sorted t : StronglySorted lt_id (get_locales t).
Proof. apply lt_sorted_sound. destruct t; vm_compute; reflexivity. Qed.

Lemma sorted_nth l i j a b :
  StronglySorted lt_id l -> (i < j)%nat -> nth_error l i = Some a -> nth_error l j = Some b ->
  langid_compare a b = Lt.
Proof.
  intro S. revert i j. induction S as [|x l S IH F]; intros [|i] [|j] H Ha Hb; try (cbn in *; discriminate); try lia.
  - cbn in *. injection Ha as ->. rewrite Forall_forall in F. apply F. eapply nth_error_In, Hb.
  - apply (IH i j); [lia|assumption|assumption].
Qed.

Lemma sorted_monotone (tb : table) id :
  StronglySorted lt_id (List.map fst tb) -> monotone (fun e => langid_compare (fst e) id) tb.
Proof.
  intros S i j x y H Hx Hy.
  destruct (Nat.eq_dec i j) as [->|N].
  - rewrite Hx in Hy. injection Hy as ->. lia.
  - assert (L : langid_compare (fst x) (fst y) = Lt).
    { apply (sorted_nth _ i j _ _ S); [lia| |]; rewrite nth_error_map.
      - now rewrite Hx. - now rewrite Hy. }
    destruct (langid_compare (fst x) id) eqn:E1, (langid_compare (fst y) id) eqn:E2; cbn; try lia;
      exfalso.
    + apply langid_compare_eq in E1. subst id.
      rewrite langid_compare_opp, L in E2. discriminate.
    + apply langid_compare_eq in E2. congruence.
    + apply langid_compare_gt in E1. pose proof (langid_compare_lt_trans _ _ _ E1 L) as Q.
      rewrite langid_compare_opp, E2 in Q. discriminate.
Qed.

(** ** create in any sorted table *)
Lemma create_in_spec how tb id :
  StronglySorted lt_id (List.map fst tb) ->
  (exists b, In (id, b) tb /\ create_in how tb id = Ok (mkPR id b)) \/
  (~ In id (List.map fst tb) /\ create_in how tb id = Err "unknown locale").
Proof.
  intro S. destruct (binary_search_ok how _ tb (sorted_monotone tb id S)) as (r & E & K).
  unfold create_in. rewrite E. cbn [rbind].
  destruct r as [i|i].
  - left. destruct K as ((k & b) & Hn & Hc). cbn in Hc. apply langid_compare_eq in Hc. subst k.
    exists b. split; [eapply nth_error_In, Hn|]. now rewrite Hn.
  - right. split; [|reflexivity]. destruct K as (_ & KL & KG).
    intro I. apply in_map_iff in I as ((k & b) & Hk & I). cbn in Hk. subst k.
    apply In_nth_error in I as [j Hj].
    destruct (Nat.lt_ge_cases j i) as [H|H].
    + specialize (KL _ _ H Hj). cbn in KL. rewrite langid_compare_refl in KL. discriminate.
    + specialize (KG _ _ H Hj). cbn in KG. rewrite langid_compare_refl in KG. discriminate.
Qed.

Lemma sorted_unique (tb : table) id b1 b2 :
  StronglySorted lt_id (List.map fst tb) -> In (id, b1) tb -> In (id, b2) tb -> b1 = b2.
Proof.
  intros S I1 I2. apply In_nth_error in I1 as [i Hi]. apply In_nth_error in I2 as [j Hj].
  destruct (Nat.lt_trichotomy i j) as [H|[->|H]].
  - assert (L := sorted_nth _ i j id id S H). rewrite !nth_error_map, Hi, Hj in L.
    rewrite langid_compare_refl in L. discriminate L; reflexivity.
  - rewrite Hi in Hj. now injection Hj.
  - assert (L := sorted_nth _ j i id id S H). rewrite !nth_error_map, Hi, Hj in L.
    rewrite langid_compare_refl in L. discriminate L; reflexivity.
Qed.

Lemma C21_lemma how id t :
  ((exists pr, create how id t = Ok pr) <-> In id (get_locales t)) /\
  (~ In id (get_locales t) -> create how id t = Err "unknown locale").
Proof.
  unfold create, get_locales, get_locales_in.
  destruct (create_in_spec how (prs t) id (prs_sorted t)) as [(b & I & E)|(N & E)]; rewrite E.
  - assert (In id (List.map fst (prs t))) by (apply in_map_iff; now exists (id, b)).
    split; [|easy]. split; [easy|]. intros _. eauto.
  - split; [|easy]. split; [intros [pr H]; discriminate|easy].
Qed.
Lemma C22_lemma how id t pr :
  create how id t = Ok pr ->
  In (id, pr_function pr) (prs t) /\ forall b, In (id, b) (prs t) -> b = pr_function pr.
Proof.
  unfold create.
  destruct (create_in_spec how (prs t) id (prs_sorted t)) as [(b & I & E)|(N & E)]; rewrite E;
    [|discriminate].
  intro H. injection H as <-. cbn. split; [assumption|].
  intros b' I'. exact (sorted_unique _ _ _ _ (prs_sorted t) I' I).
Qed.
Lemma C23_lemma how id t pr : create how id t = Ok pr -> get_locale pr = id.
Proof.
  unfold create.
  destruct (create_in_spec how (prs t) id (prs_sorted t)) as [(b & I & E)|(N & E)]; rewrite E;
    [|discriminate].
  intro H. now injection H as <-.
Qed.
Lemma create_same how how' id t : create how id t = create how' id t.
Proof.
  unfold create.
  destruct (create_in_spec how (prs t) id (prs_sorted t)) as [(b & I & E)|(N & E)];
  destruct (create_in_spec how' (prs t) id (prs_sorted t)) as [(b' & I' & E')|(N' & E')];
  rewrite E, E'.
  - now rewrite (sorted_unique _ _ _ _ (prs_sorted t) I' I).
  - exfalso. apply N'. apply in_map_iff. now exists (id, b).
  - exfalso. apply N. apply in_map_iff. now exists (id, b').
  - reflexivity.
Qed.

Definition bare (l : langid) : bool :=
  match li_script l, li_region l, li_variants l with None, None, None => true | _, _, _ => false end.
Definition pt_PT : langid := mkLang (Some (bs "pt")) None (Some (bs "PT")) None.
Definition langid_eqb (a b : langid) : bool :=
  match langid_compare a b with Eq => true | _ => false end.
Lemma langid_eqb_eq a b : langid_eqb a b = true <-> a = b.
Proof.
  unfold langid_eqb. rewrite <- langid_compare_eq. destruct (langid_compare a b); intuition congruence.
Qed.
Lemma C24_lemma how id t :
  li_script id <> None \/ li_region id <> None \/ li_variants id <> None ->
  (exists pr, create how id t = Ok pr) <-> (t = CARDINAL /\ id = pt_PT).
Proof.
  intro H. rewrite (proj1 (C21_lemma how id t)). split.
  - intro I.
    assert (A : forallb (fun l => bare l || (match t with CARDINAL => langid_eqb l pt_PT | _ => false end))
                  (get_locales t) = true) by (destruct t; vm_compute; reflexivity).
    rewrite forallb_forall in A. specialize (A _ I). apply orb_prop in A as [A|A].
    + unfold bare in A. destruct (li_script id), (li_region id), (li_variants id); try discriminate.
      intuition congruence.
    + destruct t; [|discriminate]. apply langid_eqb_eq in A. now subst.
  - intros [-> ->].
    assert (A : existsb (langid_eqb pt_PT) (get_locales CARDINAL) = true) by (vm_compute; reflexivity).
    apply existsb_exists in A as (x & I & E). apply langid_eqb_eq in E. now subst.
Qed.

(** ** C25 *)
Definition same_set (a b : list langid) : bool :=
  forallb (fun x => existsb (langid_eqb x) b) a && forallb (fun x => existsb (langid_eqb x) a) b.
Lemma same_set_sound a b : same_set a b = true -> forall x, In x a <-> In x b.
Proof.
  unfold same_set. intros H. apply andb_prop in H as [H1 H2]. rewrite forallb_forall in H1, H2.
  intro x. split; intro I.
  - specialize (H1 _ I). apply existsb_exists in H1 as (y & J & E). apply langid_eqb_eq in E. now subst.
  - specialize (H2 _ I). apply existsb_exists in H2 as (y & J & E). apply langid_eqb_eq in E. now subst.
Qed.

Lemma opt_all_in {A B} (f : A -> option B) l l' y :
  opt_all f l = Some l' -> (In y l' <-> exists x, In x l /\ f x = Some y).
Proof.
  revert l'. induction l as [|x l IH]; cbn; intros l' H.
  - injection H as <-. split; [easy|]. intros (x & [] & _).
  - destruct (f x) as [z|] eqn:F; [|discriminate]. destruct (opt_all f l) as [zs|]; [|discriminate].
    injection H as <-. cbn. rewrite (IH _ eq_refl). split.
    + intros [->|(u & I & E)]; [now exists x; split; [left|]|exists u; auto].
    + intros (u & [->|I] & E); [left; congruence|right; eauto].
Qed.
Lemma cldr_in t l rs :
  In (l, rs) (cldr t) <->
  exists m key rules, rule_map_of t (cldr_json t) = Some m /\ In (key, rules) m /\
    key <> bs "root" /\ langid_from_str key = Some l /\ opt_all cldr_rule rules = Some rs.
Proof.
  pose proof (cldr_correct t) as C. unfold cldr_of_text in C.
  destruct (rule_map_of t (cldr_json t)) as [m|] eqn:M; [|discriminate].
  rewrite (opt_all_in _ _ _ _ C). split.
  - intros ((key & rules) & I & E). apply filter_In in I as [I R].
    unfold cldr_locale in E. cbn [fst snd] in E.
    destruct (langid_from_str key) eqn:L; [|discriminate].
    destruct (opt_all cldr_rule rules) eqn:O; [|discriminate].
    injection E as <- <-. exists m, key, rules. repeat split; auto.
    intros ->. discriminate R.
  - intros (m' & key & rules & E & I & R & L & O). injection E as <-.
    exists (key, rules). split.
    + apply filter_In. split; [assumption|]. unfold not_root. cbn [fst].
      destruct (bytes_eqb key (bs "root")) eqn:B; [|reflexivity].
      exfalso. apply R. clear -B. revert B. generalize (bs "root"). intro r. revert key.
      induction r as [|c r IH]; intros [|x key]; cbn; try discriminate; [reflexivity|].
      intro H. apply andb_prop in H as [H1 H2]. apply N.eqb_eq in H1. f_equal; auto.
    + unfold cldr_locale. cbn [fst snd]. now rewrite L, O.
Qed.
Lemma sorted_weaken {A} (R R' : A -> A -> Prop) l : (forall a b, R a b -> R' a b) -> StronglySorted R l -> StronglySorted R' l.
Proof. intros W. induction 1 as [|a l S IH F]; constructor; auto. eapply Forall_impl; [|exact F]. auto. Qed.
Lemma C25_lemma t :
  StronglySorted id_less (get_locales t) /\
  exists m, rule_map_of t (cldr_json t) = Some m /\
  forall l, In l (get_locales t) <->
    exists key rules, In (key, rules) m /\ key <> bs "root" /\ langid_from_str key = Some l.
Proof.
  split; [apply (sorted_weaken lt_id); [intros a b; apply id_less_iff|apply prs_sorted]|].
  pose proof (cldr_correct t) as C. unfold cldr_of_text in C.
  destruct (rule_map_of t (cldr_json t)) as [m|] eqn:M; [|discriminate]. exists m. split; [reflexivity|].
  assert (A : same_set (get_locales t) (List.map fst (cldr t)) = true) by (destruct t; vm_compute; reflexivity).
  intro l. rewrite (same_set_sound _ _ A l). rewrite in_map_iff. split.
  - intros ((l' & rs) & E & I). cbn in E. subst l'. apply cldr_in in I.
    destruct I as (m' & key & rules & E & I & R & L & O). rewrite M in E. injection E as <-. eauto.
  - intros (key & rules & I & R & L).
    assert (F : In (key, rules) (List.filter not_root m)).
    { apply filter_In. split; [assumption|]. unfold not_root. cbn [fst].
      destruct (bytes_eqb key (bs "root")) eqn:B; [|reflexivity].
      exfalso. apply R. clear -B. revert B. generalize (bs "root"). intro r. revert key.
      induction r as [|c r IH]; intros [|x key]; cbn; try discriminate; [reflexivity|].
      intro H. apply andb_prop in H as [H1 H2]. apply N.eqb_eq in H1. f_equal; auto. }
    assert (exists rs, cldr_locale (key, rules) = Some rs) as [rs E].
    { clear -C F. revert C. generalize (cldr t). induction (List.filter not_root m) as [|x r IH]; [easy|].
      cbn [opt_all]. destruct (cldr_locale x) eqn:Q; [|discriminate].
      destruct (opt_all cldr_locale r) eqn:Q2; [|discriminate]. intros l' _.
      destruct F as [->|F]; [eauto|]. eapply IH; eauto. }
    exists rs. split; [|apply (opt_all_in _ _ _ _ C); eauto].
    unfold cldr_locale in E. cbn [fst snd] in E. rewrite L in E.
    destruct (opt_all cldr_rule rules); [|discriminate]. now injection E as <-.
Qed.

(** ** C27: code that compiles does not panic *)
Lemma eval_int_ok x po : num_ok x = true -> is_float x = false -> exists v, eval_int x po = Ok v.
Proof.
  destruct x as [o|o m]; cbn.
  - intros _ H. destruct o; try discriminate; eexists; reflexivity.
  - intros H _. destruct o; try discriminate; cbn in *; destruct (m =? 0); try discriminate; eexists; reflexivity.
Qed.
Lemma eval_ok e po : compiles e = true -> exists b, eval e po = Ok b.
Proof.
  induction e; cbn.
  - intro H. apply andb_prop in H as [H1 H2]. destruct (is_float x) eqn:F.
    + destruct l; cbn in *; rewrite ?F in H2; try discriminate. eexists; reflexivity.
    + destruct l; cbn in *; rewrite ?F in H2; try discriminate. cbn in H2. rewrite H2. cbn.
      destruct (eval_int_ok x po H1 F) as [v ->]. eexists; reflexivity.
  - intro H. apply andb_prop in H as [H1 H2]. destruct (is_float x) eqn:F.
    + destruct l; cbn in *; rewrite ?F in H2; try discriminate. eexists; reflexivity.
    + destruct l; cbn in *; rewrite ?F in H2; try discriminate. cbn in H2. rewrite H2. cbn.
      destruct (eval_int_ok x po H1 F) as [v ->]. eexists; reflexivity.
  - intro H. apply andb_prop in H as [H H4]. apply andb_prop in H as [H H3]. apply andb_prop in H as [H1 H2].
    unfold lit_int. rewrite H3, H4. cbn.
    destruct (eval_int_ok x po H1) as [v ->]; [now destruct (is_float x)|]. eexists; reflexivity.
  - intro H. destruct (IHe H) as [b ->]. eexists; reflexivity.
  - intro H. apply andb_prop in H as [H1 H2]. destruct (IHe1 H1) as [b ->]. cbn.
    destruct b; [apply IHe2, H2|eexists; reflexivity].
  - intro H. apply andb_prop in H as [H1 H2]. destruct (IHe1 H1) as [b ->]. cbn.
    destruct b; [eexists; reflexivity|apply IHe2, H2].
Qed.
Lemma eval_body_ok b po : body_compiles b = true ->
  exists c, eval_body b po = Ok c /\ (c = b_else b \/ In c (List.map snd (b_arms b))).
Proof.
  unfold eval_body, body_compiles. destruct b as [arms els]. cbn.
  induction arms as [|[e c] r IH]; cbn.
  - intros _. eauto.
  - intro H. apply andb_prop in H as [H1 H2]. destruct (eval_ok e po H1) as [v ->]. cbn.
    destruct v; [eauto|]. destruct (IH H2) as (c' & E & K). exists c'. tauto.
Qed.
Lemma prs_compile t id b : In (id, b) (prs t) -> body_compiles b = true.
Proof.
  assert (A : forallb (fun e => body_compiles (snd e)) (prs t) = true) by (destruct t; vm_compute; reflexivity).
  rewrite forallb_forall in A. intro I. apply (A _ I).
Qed.
Lemma C27_lemma t id b po : In (id, b) (prs t) -> exists c, eval_body b po = Ok c.
Proof.
  intro I. destruct (eval_body_ok b po (prs_compile _ _ _ I)) as (c & E & _). eauto.
Qed.

(** ** C26 *)
Lemma C26_lemma how id t pr w x :
  create how id t = Ok pr ->
  (select w pr x = Err "Argument can not be parsed to operands." <-> exists e, to_operands w x = Err e) /\
  (forall po, to_operands w x = Ok po ->
     exists c, select w pr x = Ok c /\
     forall w' x', to_operands w' x' = Ok po -> select w' pr x' = Ok c).
Proof.
  intro C. apply C22_lemma in C as [I _]. unfold select. split.
  - split.
    + destruct (to_operands w x) as [po|e|e]; intro H; [|eauto|discriminate].
      destruct (C27_lemma _ _ _ po I) as [c E]. congruence.
    + intros [e ->]. reflexivity.
  - intros po E. destruct (C27_lemma _ _ _ po I) as [c Ec]. exists c. rewrite E. split; [assumption|].
    intros w' x' ->. assumption.
Qed.

(** ** C28 *)
Definition cat_eqb (a b : category) : bool :=
  match a, b with
  | ZERO, ZERO | ONE, ONE | TWO, TWO | FEW, FEW | MANY, MANY | OTHER, OTHER => true
  | _, _ => false
  end.
Lemma cat_eqb_eq a b : cat_eqb a b = true <-> a = b.
Proof. destruct a, b; cbn; intuition congruence. Qed.
Definition cats_defined (t : pr_type) : bool :=
  forallb (fun '(l, b) =>
    cat_eqb (b_else b) OTHER &&
    existsb (fun '(l', rs) => langid_eqb l l' &&
       forallb (fun '(_, c) => negb (cat_eqb c OTHER) && existsb (fun '(c', _) => cat_eqb c c') rs) (b_arms b)) (cldr t))
    (prs t).
Lemma cldr_sorted t : NoDup (List.map fst (cldr t)).
Proof.
  assert (A : (fix nd l := match l with [] => true | x :: r => negb (existsb (langid_eqb x) r) && nd r end)
              (List.map fst (cldr t)) = true) by (destruct t; vm_compute; reflexivity).
  revert A. generalize (List.map fst (cldr t)). induction l as [|x l IH]; intro H; constructor.
  - apply andb_prop in H as [H _]. intro I. apply negb_true_iff in H.
    assert (existsb (langid_eqb x) l = true); [|congruence].
    apply existsb_exists. exists x. split; [assumption|]. now apply langid_eqb_eq.
  - apply IH. now apply andb_prop in H as [_ H].
Qed.
Lemma cldr_unique t id rs rs' : In (id, rs) (cldr t) -> In (id, rs') (cldr t) -> rs = rs'.
Proof.
  generalize (cldr_sorted t). generalize (cldr t). intro l.
  induction l as [|[k v] l IH]; [easy|]. cbn. intros N.
  inversion N as [|? ? N1 N2]; subst.
  intros [H1|H1] [H2|H2].
  - congruence.
  - exfalso. apply N1. injection H1 as -> ->. apply in_map_iff. now exists (id, rs').
  - exfalso. apply N1. injection H2 as -> ->. apply in_map_iff. now exists (id, rs).
  - auto.
Qed.
Lemma C28_lemma how id t pr w x c :
  create how id t = Ok pr -> select w pr x = Ok c ->
  exists rules, In (id, rules) (cldr t) /\ (c = OTHER \/ exists cond, In (c, cond) rules).
Proof.
  intros C S. apply C22_lemma in C as [I _].
  assert (A : cats_defined t = true) by (destruct t; vm_compute; reflexivity).
  unfold cats_defined in A. rewrite forallb_forall in A. specialize (A _ I). cbn in A.
  apply andb_prop in A as [A1 A2]. apply existsb_exists in A2 as ((l' & rs) & J & A2).
  apply andb_prop in A2 as [A2 A3]. apply langid_eqb_eq in A2. subst l'.
  exists rs. split; [assumption|].
  unfold select in S. destruct (to_operands w x) as [po| |]; try discriminate.
  destruct (eval_body_ok _ po (prs_compile _ _ _ I)) as (c' & E & K).
  rewrite E in S. injection S as ->. destruct K as [K|K].
  - left. apply cat_eqb_eq in A1. congruence.
  - right. rewrite forallb_forall in A3. apply in_map_iff in K as ((e & c') & E1 & K). cbn in E1. subst c'.
    specialize (A3 _ K). cbn in A3. apply andb_prop in A3 as [_ A3].
    apply existsb_exists in A3 as ((c' & cond) & L & E3). apply cat_eqb_eq in E3. subst. eauto.
Qed.

(** ** No input makes [select] panic *)
From Verif Require Import Utf8 SpecR OperandsFacts OperandsProps FloatProps.
From Coq Require Import Floats.SpecFloat.

(** values that exist: UTF-8 strings, IEEE floats *)
Definition valid_input (x : input) : Prop :=
  match x with
  | InStr s | InString s => utf8_text s
  | InF32 x => valid32 x
  | InF64 x => valid64 x
  | InUnsigned _ | InSigned _ | InOps _ => True
  end.
Lemma to_operands_no_panic w x why : valid_input x -> to_operands w x <> Panic why.
Proof.
  destruct x; cbn.
  - intro H. apply from_str_no_panic, utf8_iff, H.
  - intro H. apply from_str_no_panic, utf8_iff, H.
  - easy.
  - intros _. unfold operands_from_signed. now destruct (_ =? _)%Z.
  - intro H. destruct C20_lemma as (I & _ & K). destruct x as [s|s| |s m e].
    + destruct (C16_f32 _ H eq_refl) as [po ->]. easy.
    + now rewrite (proj2 (I s)).
    + now rewrite K.
    + destruct (C16_f32 _ H eq_refl) as [po ->]. easy.
  - intro H. destruct C20_lemma as (I & K & _). destruct x as [s|s| |s m e].
    + destruct (C16_f64 _ H eq_refl) as [po ->]. easy.
    + now rewrite (proj1 (I s)).
    + now rewrite K.
    + destruct (C16_f64 _ H eq_refl) as [po ->]. easy.
  - easy.
Qed.
Lemma C26_no_panic how id t pr w x why :
  create how id t = Ok pr -> valid_input x -> select w pr x <> Panic why.
Proof.
  intros C V. apply C22_lemma in C as [I _]. unfold select.
  destruct (to_operands w x) as [po|e|e] eqn:E.
  - destruct (C27_lemma _ _ _ po I) as [c ->]. easy.
  - easy.
  - exfalso. exact (to_operands_no_panic _ _ _ V E).
Qed.
Lemma C03_select w pr s : utf8_valid s = true -> (forall r, s <> 45 :: r) ->
  select w pr (InStr (45 :: s)) = select w pr (InStr s) /\
  select w pr (InString (45 :: s)) = select w pr (InString s).
Proof.
  intros U M. unfold select, to_operands, operands_from_String. now rewrite (C03_lemma s U M).
Qed.
Lemma select_opposite w pr :
  (forall z, select w pr (InSigned (- z)) = select w pr (InSigned z)) /\
  (forall x, valid64 x -> select w pr (InF64 (SFopp x)) = select w pr (InF64 x)) /\
  (forall x, valid32 x -> select w pr (InF32 (SFopp x)) = select w pr (InF32 x)).
Proof.
  unfold select, to_operands. repeat split; intros.
  - now rewrite C14_lemma.
  - now rewrite C19_lemma.
  - now rewrite C19_f32.
Qed.
