(** * When the generator succeeds, what its functions compute, and the shipped file *)
From Coq Require Import Lia Sorting.Permutation.
From Verif Require Import Base F64 Ast CldrParser Operands LangId Tokens GenPr GenRs Json JsonSpec JsonDe MakeRules RustExpr Spec
  DigitFacts LangIdFacts LangOrder LexFacts FileSpec MakeFacts GenFacts GenMeaning Cldr ApiProps Conformance ConformanceProps Represents ParserProps MakeRead MakeTable MakeBody MakeProps.
Open Scope N_scope.

Section Width.
Context {ptr : ptr_width}.

(** ** The sorting algorithm *)
Lemma sorted_head {V} (x : langid * V) l : ids_sorted (List.map fst (x :: l)) -> forall y, In y l -> langid_compare (fst x) (fst y) <> Gt.
Proof.
  revert x. induction l as [|z l IH]; intros x S y []; cbn [List.map ids_sorted] in S; destruct S as [S1 S2]; apply not_after_iff in S1.
  - now subst.
  - intros G. assert (Z : langid_compare (fst z) (fst y) <> Gt) by (apply IH; auto).
    apply langid_compare_gt in G. destruct (langid_compare (fst z) (fst y)) eqn:E; try easy.
    + apply langid_compare_eq in E. rewrite E in S1. apply langid_compare_gt in G. contradiction.
    + pose proof (langid_compare_lt_trans _ _ _ E G) as T. apply langid_compare_gt in T. contradiction.
Qed.
Lemma sorted_unique {V} (l m : list (langid * V)) : Permutation l m -> NoDup (List.map fst l) ->
  ids_sorted (List.map fst l) -> ids_sorted (List.map fst m) -> l = m.
Proof.
  revert m. induction l as [|x l IH]; intros m P N SL SM; [now apply Permutation_nil in P|].
  destruct m as [|y m]; [now apply Permutation_sym, Permutation_nil in P|].
  assert (E : x = y).
  { assert (X : In x (y :: m)) by (apply (Permutation_in _ P); now left).
    assert (Y : In y (x :: l)) by (apply (Permutation_in _ (Permutation_sym P)); now left).
    destruct X as [X|X]; [auto|]. destruct Y as [Y|Y]; [auto|].
    pose proof (sorted_head x l SL y Y) as A. pose proof (sorted_head y m SM x X) as B. exfalso.
    destruct (langid_compare (fst x) (fst y)) eqn:C; try easy.
    - apply langid_compare_eq in C. inversion N as [|? ? N1 _]; subst. apply N1. rewrite C. now apply in_map.
    - apply B. apply langid_compare_gt. exact C. }
  subst y. f_equal. apply Permutation_cons_inv in P. inversion N; subst. apply IH; auto.
  - destruct l; [exact Logic.I|]. now destruct SL.
  - destruct m; [exact Logic.I|]. now destruct SM.
Qed.
Definition ids_distinct (d : rule_map) : Prop :=
  forall ids, Forall2 (fun k id => langid_from_str k = Some id) (locales d) ids -> NoDup ids.
Lemma type_sorter srt srt' d : sorts srt -> sorts srt' -> ids_distinct d -> gen_type_rs srt d = gen_type_rs srt' d.
Proof.
  intros S S' D. unfold gen_type_rs. destruct (parse_keys d) as [l| |] eqn:P; [|reflexivity|reflexivity]. cbn [rbind]. f_equal.
  pose proof (D _ (parse_keys_ids _ _ P)) as N. apply sorted_unique.
  - exact (Permutation_trans (Permutation_sym (proj1 (S _ l))) (proj1 (S' _ l))).
  - apply (Permutation_NoDup (Permutation_map fst (proj1 (S _ l))) N).
  - apply (proj2 (S _ l)).
  - apply (proj2 (S' _ l)).
Qed.
Lemma sorter_irrelevant srt srt' jsons : sorts srt -> sorts srt' ->
  (forall j r t d, In j jsons -> resource_text j r -> data_of t r = Some d -> ids_distinct d) ->
  generate_rs srt jsons = generate_rs srt' jsons.
Proof.
  intros S S' D. unfold generate_rs, generate_tokens. f_equal. f_equal. generalize (mkGen None None None).
  induction jsons as [|j js IH]; intros st; [reflexivity|]. cbn [gen_loop].
  destruct (parse_plurals_resource_from_string j) as [r|] eqn:E; cbn [unwrap rbind]; [|reflexivity].
  assert (K : gen_step srt st r = gen_step srt' st r).
  { unfold gen_step. destruct (match g_version st with Some _ => _ | None => _ end); cbn [rbind]; try reflexivity.
    assert (GP : forall cur t, gen_part srt cur (data_of t r) = gen_part srt' cur (data_of t r)).
    { intros cur t. unfold gen_part. destruct (data_of t r) as [d|] eqn:DO; [|reflexivity].
      rewrite (type_sorter srt srt' d S S'); [reflexivity|]. eapply D; [now left|exact (proj1 (resource_text_iff _ _) E)|exact DO]. }
    rewrite (GP (g_cardinal st) CARDINAL : gen_part srt _ (su_cardinal r) = _).
    destruct (gen_part srt' (g_cardinal st) (data_of CARDINAL r)) eqn:Q; cbn [data_of] in Q; rewrite ?Q; cbn [rbind]; try reflexivity.
    now rewrite (GP (g_ordinal st) ORDINAL : gen_part srt _ (su_ordinal r) = _). }
  rewrite K. destruct (gen_step srt' st r); cbn [rbind]; try reflexivity. apply IH. intros. eapply D; eauto. now right.
Qed.

Lemma insert_sorted {V} (x : langid * V) l : ids_sorted (List.map fst l) ->
  ids_sorted (List.map fst (insert_by_key x l)) /\ Permutation (x :: l) (insert_by_key x l).
Proof.
  induction l as [|y l IH]; cbn [insert_by_key]; intros S; [split; [exact Logic.I|apply Permutation_refl]|].
  destruct (langid_compare (fst x) (fst y)) eqn:C.
  - split; [|apply Permutation_refl]. cbn [List.map ids_sorted]. split; [apply not_after_iff; congruence|exact S].
  - split; [|apply Permutation_refl]. cbn [List.map ids_sorted]. split; [apply not_after_iff; congruence|exact S].
  - assert (S' : ids_sorted (List.map fst l)) by (destruct l; [exact Logic.I|now destruct S]).
    destruct (IH S') as [A B]. split.
    + assert (H : forall z, In z (x :: l) -> langid_compare (fst y) (fst z) <> Gt).
      { intros z [<-|Z]; [rewrite langid_compare_opp, C; discriminate|]. exact (sorted_head y l S z Z). }
      destruct (insert_by_key x l) as [|z r] eqn:E; [exact Logic.I|]. cbn [List.map ids_sorted]. split; [|exact A].
      apply not_after_iff, H. apply (Permutation_in _ (Permutation_sym B)). now left.
    + eapply Permutation_trans; [apply perm_swap|]. now apply perm_skip.
Qed.
Lemma insertion_sorts : sorts insertion_sort.
Proof.
  intros V l. unfold insertion_sort. induction l as [|x l [P S]]; [split; [apply Permutation_refl|exact Logic.I]|].
  cbn [fold_right]. destruct (insert_sorted x _ S) as [A B]. split; [|exact A].
  eapply Permutation_trans; [apply perm_skip, P|exact B].
Qed.
Lemma insertion_uniform : uniform insertion_sort.
Proof.
  intros V W f l. unfold insertion_sort. induction l as [|x l IH]; [reflexivity|]. cbn [List.map fold_right]. rewrite IH.
  generalize (fold_right insert_by_key [] l). clear. induction l as [|y l IH]; [reflexivity|]. cbn [List.map insert_by_key].
  change (fst (on_value f x)) with (fst x). change (fst (on_value f y)) with (fst y).
  destruct (langid_compare (fst x) (fst y)); cbn [List.map]; rewrite ?IH; reflexivity.
Qed.

(** ** The generated function is the CLDR function *)
Lemma arms_value cs arms po d ai :
  represents po d -> proper d -> (ai = true -> uts_f d = 0) ->
  Forall2 arm_of cs arms -> Forall (fun cc => supported ai (snd cc) = true) cs ->
  Forall2 (fun cc arm => snd arm = fst cc /\ eval (fst arm) po = Ok (uts_condition (snd cc) d)) cs arms.
Proof.
  intros R P AI F S. induction F as [|[c co] [e c'] cs arms (A & ts & G & E) F IH]; constructor; inversion S as [|? ? S1 S2]; subst; auto.
  cbn [fst snd] in *. split; [auto|]. destruct (cond_ok ai co po d R P AI S1) as (ts2 & e2 & G2 & E2 & V).
  rewrite G in G2. injection G2 as <-. rewrite E in E2. injection E2 as <-. exact V.
Qed.
Lemma eval_arms_select cs arms po d : Forall (fun cc => fst cc <> OTHER) cs ->
  Forall2 (fun cc arm => snd arm = fst cc /\ eval (fst arm) po = Ok (uts_condition (snd cc) d)) cs arms ->
  exists c, eval_arms arms OTHER po = Ok c /\ cldr_select cs d c.
Proof.
  intros N F. induction F as [|[c co] [e c'] cs arms [A B] F IH]; cbn [eval_arms].
  - exists OTHER. split; [reflexivity|]. right. split; [reflexivity|]. intros ? ? [].
  - inversion N as [|? ? N1 N2]; subst. cbn [fst snd] in *. subst c'. rewrite B. cbn [rbind]. destruct (uts_condition co d) eqn:U.
    + exists c. split; [reflexivity|]. left. split; [auto|]. exists co. split; [now left|auto].
    + destruct (IH N2) as (k & K & S). exists k. split; [exact K|]. destruct S as [(S1 & co' & S2 & S3)|[S1 S2]].
      * left. split; [auto|]. exists co'. split; [now right|auto].
      * right. split; [auto|]. intros c' co' [Q|Q] NO; [congruence|now apply (S2 c')].
Qed.
Lemma select_filter cs d c : cldr_select (List.filter not_other cs) d c -> cldr_select cs d c.
Proof.
  intros [(N & co & I & U)|(-> & H)]; [left|right].
  - split; [auto|]. exists co. split; [|auto]. now apply filter_In in I.
  - split; [reflexivity|]. intros c' co I N. apply (H c' co); [|auto]. apply filter_In. split; [auto|]. unfold not_other. cbn. now destruct c'.
Qed.
Lemma follows_operands srt jsons out rs t tbl id b : sorts srt -> generate_rs srt jsons = Ok out -> inputs_are jsons rs ->
  output_table t out = Some tbl -> In (id, b) tbl ->
  exists r d key id0 cs, In r rs /\ data_of t r = Some d /\ input_locale d key id0 cs /\ id = drop_variants id0 /\
    forall ai po dec, represents po dec -> proper dec -> (ai = true -> uts_f dec = 0) ->
      (forall c co, In (c, co) cs -> c <> OTHER -> supported ai co = true) ->
      exists c, eval_body b po = Ok c /\ cldr_select cs dec c.
Proof.
  intros S G I O E. destruct (entry_lemma _ _ _ _ _ _ _ _ S G I O E) as (r & d & key & id0 & cs & A & B & C & D & F & H).
  exists r, d, key, id0, cs. split; [auto|]. split; [auto|]. split; [auto|]. split; [auto|].
  intros ai po dec R P AI SU. unfold eval_body. rewrite H.
  assert (SU' : Forall (fun cc => supported ai (snd cc) = true) (List.filter not_other cs)).
  { apply Forall_forall. intros [c co] J. apply filter_In in J as [J1 J2]. apply (SU c co J1). now intros ->. }
  assert (NO : Forall (fun cc => fst cc <> OTHER) (List.filter not_other cs)).
  { apply Forall_forall. intros [c co] J. apply filter_In in J as [J1 J2]. cbn. now intros ->. }
  destruct (eval_arms_select _ _ po dec NO (arms_value _ _ po dec ai R P AI F SU')) as (c & EV & SE).
  exists c. split; [exact EV|]. now apply select_filter.
Qed.

Lemma not_root_key key : negb (is_root key) = true <-> key <> bs "root".
Proof.
  unfold is_root. destruct (bytes_eqb key (bs "root")) eqn:Q; cbn [negb].
  - apply bytes_eqb_eq in Q. easy.
  - split; [|reflexivity]. intros _ ->. now rewrite bytes_eqb_refl in Q.
Qed.
(** the table is readable when no condition is empty and no locale is "und" *)
Lemma rule_reads_unique r cs cs' : Forall2 rule_reads r cs -> Forall2 rule_reads r cs' -> cs = cs'.
Proof.
  intros F. revert cs'. induction F as [|a [c co] r cs R1 F IH]; intros cs' F'; inversion F' as [|? [c' co'] ? cs'' R2 G]; subst; [reflexivity|].
  apply rule_reads_iff in R1 as (p & P1 & P2 & P3). apply rule_reads_iff in R2 as (q & Q1 & Q2 & Q3).
  cbn [fst snd] in *. rewrite P1 in Q1. injection Q1 as <-. rewrite P3 in Q3. injection Q3 as <-. rewrite <- Q2 in P2. subst c'. f_equal. now apply IH.
Qed.
Definition readable_rules (cs : list (category * condition)) : Prop :=
  forall c co, In (c, co) cs -> c <> OTHER -> cond_nonempty co.
Lemma set_readable cs set : readable_rules cs ->
  Forall2 (fun cc ce => fst cc = fst ce /\ gen_pr (snd cc) = Ok (snd ce)) (List.filter not_other cs) set ->
  exists arms, map_opt read_arm set = Some arms.
Proof.
  intros R F.
  assert (K : Forall (fun cc => cond_nonempty (snd cc)) (List.filter not_other cs)).
  { apply Forall_forall. intros [c co] J. apply filter_In in J as [J1 J2]. apply (R c co J1). now intros ->. }
  induction F as [|[c co] [c' ts] m set [X Y] F IH]; [now exists []|]. inversion K as [|? ? K1 K2]; subst. cbn [fst snd] in *.
  destruct (IH K2) as (arms & AR). cbn [map_opt]. rewrite AR. destruct (C46_lemma co K1) as (ts' & e & G & E & _). rewrite Y in G. injection G as <-.
  unfold read_arm at 1. cbn [snd fst]. rewrite E. cbn [option_map]. eauto.
Qed.
Lemma table_readable srt rs t out r d : sorts srt -> table_for srt rs t out -> In r rs -> data_of t r = Some d ->
  (forall key id cs, input_locale d key id cs -> li_language id <> None /\ readable_rules cs) ->
  exists tbl, output_table t out = Some tbl.
Proof.
  intros S T R D H. destruct T as [N _|r' d' l ts R' D' P U G F O K T]; [rewrite (N r R) in D; discriminate|].
  rewrite (U r R d D) in *. clear U. rewrite T. pose proof (Permutation_Forall (proj1 (S _ l)) (keys_valid _ _ P)) as V.
  assert (J : Forall (fun ir => In ir l) (srt _ l)).
  { apply Forall_forall. intros x X. exact (Permutation_in _ (Permutation_sym (proj1 (S _ l))) X). }
  revert F V J. generalize (srt (bmap bytes) l). intros m F V J. clear G T K. induction F as [|[id rules] s m ts' (set & G1 & ->) F IH]; [now exists []|].
  inversion V as [|? ? V1 V2]; subst. inversion J as [|? ? J1 J2]; subst. cbn [fst snd] in *. 
  destruct IH as (tbl & E); auto.
  cbn [map_opt]. rewrite E. pose proof (set_shape _ _ G1) as [A B]. rewrite read_mid by auto.
  apply lang_rules_ok in G1 as (cs & C1 & C2). destruct (input_locale_of d' l id rules cs P J1 C1) as (key & IL).
  destruct (H key id cs IL) as [LK RR]. rewrite read_gen_langid by auto. destruct (set_readable cs set RR C2) as (arms & ->). eauto.
Qed.
Lemma table_has srt rs t out r d tbl key id cs : sorts srt -> table_for srt rs t out -> In r rs -> data_of t r = Some d ->
  output_table t out = Some tbl -> input_locale d key id cs ->
  exists b, In (drop_variants id, b) tbl /\ b_else b = OTHER /\ Forall2 arm_of (List.filter not_other cs) (b_arms b).
Proof.
  intros S T R D O (NR & LK & rules & I & RR). pose proof T as T0.
  destruct (table_entries _ _ _ _ _ S T O) as (r1 & d1 & l & R1 & D1 & P & F).
  assert (E : d1 = d).
  { destruct T0 as [N _|r' d' l' ts R' D' P' U _ _ _ _ _]; [rewrite (N r R) in D; discriminate|].
    now rewrite (U r R d D), (U r1 R1 d1 D1). }
  subst d1. pose proof P as P'. apply parse_keys_ok in P'.
  assert (J : In (key, rules) (List.filter (fun kv : bytes * bmap bytes => negb (is_root (fst kv))) d)).
  { apply filter_In. split; [auto|]. now apply not_root_key. }
  destruct (Forall2_in_l _ _ _ _ P' J) as ([id' rules'] & J' & A & B). cbn [fst snd] in *. subst rules'.
  rewrite LK in A. injection A as <-. apply (Permutation_in _ (proj1 (S _ l))) in J'.
  destruct (Forall2_in_l _ _ _ _ F J') as ([k b] & Q & X & Y & cs' & Z1 & Z2). cbn [fst snd] in *. subst k.
  rewrite (rule_reads_unique _ _ _ RR Z1). exists b. auto.
Qed.
Definition locale_supported (ai : bool) (id : langid) (cs : list (category * condition)) : Prop :=
  li_language id <> None /\ forall c co, In (c, co) cs -> c <> OTHER -> supported ai co = true.
Lemma supported_readable ai id cs : locale_supported ai id cs -> li_language id <> None /\ readable_rules cs.
Proof. intros [A B]. split; [auto|]. intros c co I N. apply (supported_nonempty ai). eauto. Qed.
Lemma C63_represents srt jsons out rs t r d ai : sorts srt -> generate_rs srt jsons = Ok out -> inputs_are jsons rs ->
  In r rs -> data_of t r = Some d -> (forall key id cs, input_locale d key id cs -> locale_supported ai id cs) ->
  exists tbl, output_table t out = Some tbl /\
    forall key id cs, input_locale d key id cs ->
    exists b, In (drop_variants id, b) tbl /\
    forall po dec, represents po dec -> proper dec -> (ai = true -> uts_f dec = 0) ->
      exists c, eval_body b po = Ok c /\ cldr_select cs dec c.
Proof.
  intros S G I R D H. apply (generate_table _ _ _ t) in G as (rs' & I' & T). rewrite (inputs_unique _ _ _ I I') in *.
  destruct (table_readable _ _ _ _ r d S T R D) as (tbl & O). { intros key id cs IL. exact (supported_readable ai id cs (H _ _ _ IL)). }
  exists tbl. split; [auto|]. intros key id cs IL. destruct (table_has _ _ _ _ r d tbl key id cs S T R D O IL) as (b & B1 & B2 & B3).
  exists b. split; [auto|]. intros po dec RP PR AI. destruct (H _ _ _ IL) as [_ SU].
  unfold eval_body. rewrite B2.
  assert (SU' : Forall (fun cc => supported ai (snd cc) = true) (List.filter not_other cs)).
  { apply Forall_forall. intros [c co] J. apply filter_In in J as [J1 J2]. apply (SU c co J1). now intros ->. }
  assert (NO : Forall (fun cc => fst cc <> OTHER) (List.filter not_other cs)).
  { apply Forall_forall. intros [c co] J. apply filter_In in J as [J1 J2]. cbn. now intros ->. }
  destruct (eval_arms_select _ _ po dec NO (arms_value _ _ po dec ai RP PR AI B3 SU')) as (c & EV & SE).
  exists c. split; [exact EV|]. now apply select_filter.
Qed.
Lemma C63_lemma srt jsons out rs t r d ai : sorts srt -> generate_rs srt jsons = Ok out -> inputs_are jsons rs ->
  In r rs -> data_of t r = Some d -> (forall key id cs, input_locale d key id cs -> locale_supported ai id cs) ->
  exists tbl, output_table t out = Some tbl /\
    forall key id cs, input_locale d key id cs ->
    exists b, In (drop_variants id, b) tbl /\
    (forall s dec, numeral s dec -> small dec -> (ai = true -> integral dec = true) ->
      exists po c, operands_from_str s = Ok po /\ eval_body b po = Ok c /\ cldr_select cs dec c) /\
    (forall x, x < 2 ^ 64 -> exists c, eval_body b (operands_from_unsigned x) = Ok c /\ cldr_select cs (mkDecimal x []) c).
Proof.
  intros S G I R D H. destruct (C63_represents _ _ _ _ _ _ _ _ S G I R D H) as (tbl & O & K). exists tbl. split; [auto|].
  intros key id cs IL. destruct (K key id cs IL) as (b & B & E). exists b. split; [auto|]. split.
  - intros s dec Nm Sm AI. destruct (numeral_represents s dec Nm Sm) as (po & PO & RP).
    destruct (E po dec RP (numeral_proper s dec Nm)) as (c & C1 & C2); [intro Q; now apply N.eqb_eq, AI|]. eauto.
  - intros x X. apply E; [now apply unsigned_represents|constructor|reflexivity].
Qed.

(** ** Exactly when the generator succeeds *)
Lemma generable_iff c : (exists ts, gen_pr c = Ok ts) <-> generable c.
Proof.
  assert (REL : forall r, (exists ts, create_relation r = Ok ts) <-> (is_within_op (rel_op r) = true -> has_range r = true)).
  { intros r. unfold create_relation, has_range.
    destruct (convert_rangl (rel_list r)) as [vs rgs] eqn:CR.
    assert (K : existsb (fun i => match i with RRange _ => true | RValue _ => false end) (rel_list r) = match rgs with [] => false | _ => true end).
    { unfold convert_rangl in CR. injection CR as _ <-. clear. induction (rel_list r) as [|[x|v] l IH]; [reflexivity|reflexivity|exact IH]. }
    rewrite K. destruct (match ex_modulus (rel_expr r) with Some _ => _ | None => _ end) as [mc m].
    destruct (rel_op r); cbn [is_within_op];
      try (split; [intros _ Q; discriminate Q|intros _; eexists; reflexivity]);
      (destruct rgs as [|[a b] rgs]; cbn [nth_error unwrap rbind];
       [split; [intros (ts & Q); discriminate Q|intros Q; discriminate (Q eq_refl)]
       |split; [reflexivity|intros _; destruct (is_n _), mc; cbn; eexists; reflexivity]]). }
  assert (MAP : forall {A B} (f : A -> res B) (Q : A -> Prop), (forall a, (exists b, f a = Ok b) <-> Q a) ->
     forall l, (exists m, map_res f l = Ok m) <-> Forall Q l).
  { intros A B f Q H l. split.
    - intros (m & M). apply map_res_ok in M. induction M as [|a b l m X F IH]; constructor; auto. apply H. eauto.
    - intros F. induction F as [|a l X F (m & M)]; [now exists []|]. apply H in X as (b & X). exists (b :: m). apply map_res_ok in M.
      apply map_res_ok. now constructor. }
  assert (AND : forall a, (exists ts, create_and_condition a = Ok ts) <-> Forall (fun r => is_within_op (rel_op r) = true -> has_range r = true) a).
  { intros a. rewrite <- (MAP _ _ create_relation _ REL a). unfold create_and_condition. split.
    - intros (ts & T). apply rbind_ok in T as (m & M & _). eauto.
    - intros (m & M). rewrite M. cbn. eauto. }
  unfold generable. transitivity (Forall (fun a => Forall (fun r => is_within_op (rel_op r) = true -> has_range r = true) a) c).
  - rewrite <- (MAP _ _ create_and_condition _ AND c). unfold gen_pr, create_condition. split.
    + intros (ts & T). apply rbind_ok in T as (m & M & _). eauto.
    + intros (m & M). rewrite M. cbn. eauto.
  - split.
    + intros F a r A R. rewrite Forall_forall in F. specialize (F a A). rewrite Forall_forall in F. now apply F.
    + intros F. apply Forall_forall. intros a A. apply Forall_forall. intros r R. now apply (F a r).
Qed.
Definition rule_ok (nt : bytes * bytes) : Prop :=
  exists part co c, third_part (fst nt) part /\ names part c /\
    parse_plural_condition (snd nt) = Ok co /\ (c <> OTHER -> generable co).
Lemma lang_rules_iff r : (exists set, gen_lang_rules r = Ok set) <-> Forall rule_ok r.
Proof.
  split.
  - intros (set & G). apply lang_rules_ok in G as (cs & A & B). revert set B.
    induction A as [|[n tx] [c co] r cs (p & P1 & P2 & P3) F IH]; intros set B; constructor; cbn [fst snd List.filter] in *.
    + exists p, co, c. cbn [fst snd]. split; [auto|]. split; [auto|]. split; [auto|]. intros N. apply generable_iff.
      assert (NO : not_other (c, co) = true) by (unfold not_other; cbn; now destruct c). rewrite NO in B.
      inversion B as [|? [c' ts] ? ? [X Y]]; subst. cbn in Y. eauto.
    + destruct (not_other (c, co)); [inversion B; subst; eauto|eauto].
  - intros F. assert (K : exists cs, Forall2 rule_reads r cs /\ exists set,
       Forall2 (fun cc ce => fst cc = fst ce /\ gen_pr (snd cc) = Ok (snd ce)) (List.filter not_other cs) set).
    { induction F as [|[n tx] r (p & co & c & P1 & P2 & P3 & P4) F (cs & C & set & ST)]; [exists []; split; [constructor|exists []; constructor]|].
      cbn [fst snd] in *. exists ((c, co) :: cs). split; [constructor; [exists p; auto|auto]|]. cbn [List.filter].
      destruct (not_other (c, co)) eqn:N; [|eauto].
      destruct (proj2 (generable_iff co)) as (ts & T). { apply P4. intros Q. unfold not_other in N. cbn in N. now rewrite Q in N. }
      exists ((c, ts) :: set). constructor; auto. }
    destruct K as (cs & C & set & ST). exists set. apply lang_rules_ok. eauto.
Qed.
Definition data_ok (d : rule_map) : Prop :=
  forall key rules, In (key, rules) d -> key <> bs "root" -> langid_from_str key <> None /\ Forall rule_ok rules.
Lemma type_iff srt d : sorts srt -> (exists ts, gen_type_rs srt d = Ok ts) <-> data_ok d.
Proof.
  intros S. split.
  - intros (ts & T) key rules I N. apply type_ok in T as (l & P & F). apply parse_keys_ok in P.
    assert (J : In (key, rules) (List.filter (fun kv : bytes * bmap bytes => negb (is_root (fst kv))) d)).
    { apply filter_In. split; [auto|]. now apply not_root_key. }
    destruct (Forall2_in_l _ _ _ _ P J) as ([id rules'] & J' & A & B). cbn [fst snd] in *. subst rules'. split; [congruence|].
    apply (Permutation_in _ (proj1 (S _ l))) in J'. destruct (Forall2_in_l _ _ _ _ F J') as (s & _ & set & G & _). cbn in G.
    apply lang_rules_iff. eauto.
  - intros H.
    assert (P : exists l, parse_keys d = Ok l).
    { assert (K : exists l, Forall2 (fun kv iv => langid_from_str (fst kv) = Some (fst iv) /\ snd kv = snd iv)
        (List.filter (fun kv : bytes * bmap bytes => negb (is_root (fst kv))) d) l).
      { assert (Q : Forall (fun kv : bytes * bmap bytes => langid_from_str (fst kv) <> None) (List.filter (fun kv => negb (is_root (fst kv))) d)).
        { apply Forall_forall. intros [key rules] J. apply filter_In in J as [J1 J2]. apply (H key rules J1). now apply not_root_key. }
        induction Q as [|[key rules] m X F (l & L)]; [exists []; constructor|]. cbn [fst] in X.
        destruct (langid_from_str key) as [id|] eqn:E; [|easy]. exists ((id, rules) :: l). constructor; auto. }
      destruct K as (l & L). exists l. now apply parse_keys_ok. }
    destruct P as (l & P). assert (Q : Forall (fun ir => exists set, gen_lang_rules (snd ir) = Ok set) (srt _ l)).
    { apply Forall_forall. intros [id rules] J. apply (Permutation_in _ (Permutation_sym (proj1 (S _ l)))) in J.
      apply parse_keys_ok in P. destruct (Forall2_in_r _ _ _ _ P J) as ([key rules'] & J' & A & B). cbn [fst snd] in *. subst rules'.
      apply filter_In in J' as [J1 J2]. apply lang_rules_iff. apply (H key rules J1). now apply not_root_key. }
    assert (W : exists ts, Forall2 (fun ir s => exists set, gen_lang_rules (snd ir) = Ok set /\ s = gen_mid (fst ir) set) (srt _ l) ts).
    { induction Q as [|ir m (set & G) F (ts & T)]; [exists []; constructor|]. exists (gen_mid (fst ir) set :: ts). constructor; eauto. }
    destruct W as (ts & T). exists ts. apply type_ok. eauto.
Qed.
Definition once (t : pr_type) (rs : list supplemental) : Prop :=
  forall l1 r1 l2 r2 l3, rs = l1 ++ r1 :: l2 ++ r2 :: l3 -> data_of t r1 = None \/ data_of t r2 = None.
Record acceptable (rs : list supplemental) : Prop := {
  ac_version : exists v z, Forall (fun r => version_of r = v) rs /\ version_number v z;
  ac_once : forall t, once t rs;
  ac_some : exists r t d, In r rs /\ data_of t r = Some d;
  ac_data : forall r t d, In r rs -> data_of t r = Some d -> data_ok d }.
Lemma once_collect t rs : once t rs -> (List.length (collect t rs) <= 1)%nat.
Proof.
  intros O. induction rs as [|r rs IH]; [cbn; lia|].
  assert (OR : once t rs). { intros l1 r1 l2 r2 l3 ->. apply (O (r :: l1) r1 l2 r2 l3). reflexivity. }
  unfold collect. cbn [flat_map]. fold (collect t rs). destruct (data_of t r) as [d|] eqn:D; [|now apply IH].
  destruct (collect t rs) as [|d' m] eqn:E; [cbn; lia|]. exfalso.
  assert (K : In d' (collect t rs)) by (rewrite E; now left). apply collect_in in K as (r2 & R2 & D2). apply in_split in R2 as (l2 & l3 & ->).
  destruct (O [] r l2 r2 l3 eq_refl); congruence.
Qed.
Lemma C64_lemma srt jsons : sorts srt ->
  (exists out, generate_rs srt jsons = Ok out) <-> (exists rs, inputs_are jsons rs /\ acceptable rs).
Proof.
  intros S. split.
  - intros (out & G). pose proof G as G0. apply generate_ok in G as (rs & v & num & c & o & I & G & _). exists rs. split; [auto|]. split.
    + exists v, num. split; [exact (ok_versions _ _ _ _ _ _ G)|]. apply isize_iff. exact (ok_num _ _ _ _ _ _ G).
    + intros t l1 r1 l2 r2 l3 ->. destruct (data_of t r1) eqn:D1; [|now left]. destruct (data_of t r2) eqn:D2; [|now right].
      destruct (C54_twice srt jsons l1 r1 l2 r2 l3 t I) as (w & W); congruence.
    + destruct (collect CARDINAL rs) as [|d m] eqn:E.
      * destruct (collect ORDINAL rs) as [|d m] eqn:E2.
        -- exfalso. pose proof (gen_part_of _ _ _ _ _ _ CARDINAL G) as P1. pose proof (gen_part_of _ _ _ _ _ _ ORDINAL G) as P2.
           rewrite E in P1. rewrite E2 in P2. cbn in P1, P2. subst. now destruct (ok_some _ _ _ _ _ _ G).
        -- assert (K : In d (collect ORDINAL rs)) by (rewrite E2; now left). apply collect_in in K as (r & R & D). eauto.
      * assert (K : In d (collect CARDINAL rs)) by (rewrite E; now left). apply collect_in in K as (r & R & D). eauto.
    + intros r t d R D. apply (generate_table _ _ _ t) in G0 as (rs' & I' & T). rewrite (inputs_unique _ _ _ I I') in *.
      destruct T as [N _|r' d' l ts R' D' P U GT F O K T]; [rewrite (N r R) in D; discriminate|]. rewrite (U r R d D) in *.
      apply (type_iff srt). { exact S. } eauto.
  - intros (rs & I & AC). destruct (ac_version _ AC) as (v & z & V & Z).
    assert (P : forall t, exists o, part_ok srt None (collect t rs) o /\ (collect t rs <> [] -> o <> None)).
    { intros t. pose proof (once_collect t rs (ac_once _ AC t)) as L. destruct (collect t rs) as [|d [|]] eqn:E; [|  |cbn in L; lia].
      - exists None. split; [reflexivity|easy].
      - assert (K : In d (collect t rs)) by (rewrite E; now left). apply collect_in in K as (r & R & D).
        destruct (proj2 (type_iff srt d S) (ac_data _ AC r t d R D)) as (ts & T). exists (Some ts). split; [|easy]. split; [reflexivity|]. eauto. }
    destruct (P CARDINAL) as (c & C1 & C2), (P ORDINAL) as (o & O1 & O2).
    exists (print_tokens (file_tokens z c o)). apply generate_ok. exists rs, v, z, c, o. split; [auto|]. split; [|reflexivity]. constructor; auto.
    + now apply isize_iff.
    + destruct (ac_some _ AC) as (r & t & d & R & D). assert (K : In d (collect t rs)) by (apply collect_in; eauto).
      destruct t; [left; apply C2|right; apply O2]; intros Q; rewrite Q in K; destruct K.
Qed.
End Width.
