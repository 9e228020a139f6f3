(** * make_pluralrules: when [generate_rs] succeeds, and with which tokens *)
From Coq Require Import Lia Sorting.Permutation.
From Verif Require Import Base Ast CldrParser LangId Tokens GenPr GenRs Json JsonSpec JsonDe MakeRules RustExpr
  DigitFacts LangIdFacts ParserProps LexFacts FileSpec.
Open Scope N_scope.

Section Width.
Context {ptr : ptr_width}.

(** ** No [Err] *)
Definition no_err {A} (x : res A) : Prop := forall e, x <> Err e.
Lemma no_err_bind {A B} (x : res A) (f : A -> res B) : no_err x -> (forall a, x = Ok a -> no_err (f a)) -> no_err (rbind x f).
Proof. intros X F e. destruct x; cbn; [now apply F|now specialize (X e0)|discriminate]. Qed.
Lemma no_err_unwrap {A} w (o : option A) : no_err (unwrap w o).
Proof. intros e. destruct o; discriminate. Qed.
Lemma no_err_ok {A} (a : A) : no_err (Ok a).
Proof. intros e. discriminate. Qed.
Lemma no_err_panic {A} w : no_err (@Panic A w).
Proof. intros e. discriminate. Qed.
Lemma no_err_map {A B} (f : A -> res B) l : (forall a, In a l -> no_err (f a)) -> no_err (map_res f l).
Proof.
  induction l as [|a l IH]; intros H; [apply no_err_ok|].
  change (map_res f (a :: l)) with (rbind (f a) (fun y => rbind (map_res f l) (fun ys => Ok (y :: ys)))).
  apply no_err_bind; [apply H; now left|]. intros b _. apply no_err_bind; [apply IH; intros; apply H; now right|].
  intros. apply no_err_ok.
Qed.
Lemma gen_pr_no_err c : no_err (gen_pr c).
Proof.
  unfold gen_pr, create_condition. apply no_err_bind; [|intros; apply no_err_ok]. apply no_err_map. intros a _.
  unfold create_and_condition. apply no_err_bind; [|intros; apply no_err_ok]. apply no_err_map. intros r _.
  unfold create_relation. destruct (convert_rangl (rel_list r)) as [vs rs].
  destruct (match ex_modulus (rel_expr r) with Some _ => _ | None => _ end) as [mc m].
  apply no_err_bind; [|intros; apply no_err_ok].
  destruct (rel_op r); try apply no_err_ok; (apply no_err_bind; [apply no_err_unwrap|]; intros [rf rb] _;
    destruct (is_n _); [destruct (negb mc)|]; apply no_err_ok).
Qed.
Lemma gen_lang_no_err r : no_err (gen_lang_rules r).
Proof.
  induction r as [|[k v] r IH]; cbn [gen_lang_rules]; [apply no_err_ok|].
  apply no_err_bind; [apply no_err_unwrap|]. intros cat _. apply no_err_bind.
  { destruct (parse_plural_condition v); [apply no_err_ok|apply no_err_panic|apply no_err_panic]. }
  intros c _. destruct (category_of_name cat); auto; (apply no_err_bind; [apply gen_pr_no_err|]; intros; apply no_err_bind; auto;
    intros; apply no_err_ok).
Qed.
Lemma parse_keys_no_err {V} (l : bmap V) : no_err (parse_keys l).
Proof.
  induction l as [|[k v] r IH]; cbn [parse_keys]; [apply no_err_ok|]. destruct (bytes_eqb k (bs "root")); auto.
  apply no_err_bind; [apply no_err_unwrap|]. intros. apply no_err_bind; auto. intros. apply no_err_ok.
Qed.
Lemma gen_type_no_err srt d : no_err (gen_type_rs srt d).
Proof.
  unfold gen_type_rs. apply no_err_bind; [apply parse_keys_no_err|]. intros l _. apply no_err_map.
  intros [k r] _. apply no_err_bind; [apply gen_lang_no_err|]. intros. apply no_err_ok.
Qed.
Lemma gen_part_no_err srt cur d : no_err (gen_part srt cur d).
Proof.
  destruct d; cbn; [|apply no_err_ok]. apply no_err_bind; [apply gen_type_no_err|]. intros.
  destruct cur; [apply no_err_panic|apply no_err_ok].
Qed.
Lemma generate_no_err srt jsons : no_err (generate_rs srt jsons).
Proof.
  unfold generate_rs, generate_tokens. apply no_err_bind; [|intros; apply no_err_ok]. apply no_err_bind.
  - generalize (mkGen None None None). induction jsons as [|j js IH]; intros st; cbn [gen_loop]; [apply no_err_ok|].
    apply no_err_bind; [apply no_err_unwrap|]. intros r _. apply no_err_bind; [|intros; apply IH].
    unfold gen_step. apply no_err_bind.
    { destruct (g_version st); [|apply no_err_ok]. destruct (bytes_eqb _ _); [apply no_err_ok|apply no_err_panic]. }
    intros. apply no_err_bind; [apply gen_part_no_err|]. intros. apply no_err_bind; [apply gen_part_no_err|].
    intros. apply no_err_ok.
  - intros st _. unfold gen_finish. destruct (g_version st); [|apply no_err_panic].
    destruct (_ ++ _); [apply no_err_panic|]. unfold gen_fn. apply no_err_bind; [apply no_err_unwrap|]. intros. apply no_err_ok.
Qed.

(** ** The loop *)
Definition collect (t : pr_type) (rs : list supplemental) : list rule_map :=
  flat_map (fun r => match data_of t r with Some d => [d] | None => [] end) rs.
Definition part_ok (srt : sorter) (cur : option (list (list token))) (ds : list rule_map) (r : option (list (list token))) : Prop :=
  match ds with
  | [] => r = cur
  | [d] => cur = None /\ exists ts, gen_type_rs srt d = Ok ts /\ r = Some ts
  | _ => False
  end.
Definition version_ok (cur : option bytes) (vs : list bytes) (r : option bytes) : Prop :=
  match vs with
  | [] => r = cur
  | v :: _ => (cur = None \/ cur = Some v) /\ r = Some v /\ Forall (eq v) vs
  end.
Lemma rbind_ok {A B} (x : res A) (f : A -> res B) b : rbind x f = Ok b <-> exists a, x = Ok a /\ f a = Ok b.
Proof.
  split.
  - destruct x; cbn; try discriminate. eauto.
  - intros (a & -> & H). exact H.
Qed.
Lemma unwrap_ok {A} w (o : option A) a : unwrap w o = Ok a <-> o = Some a.
Proof. destruct o; cbn; split; congruence. Qed.
Lemma gen_part_ok srt cur d r : gen_part srt cur d = Ok r <-> part_ok srt cur (match d with Some d => [d] | None => [] end) r.
Proof.
  destruct d as [d|]; cbn.
  - rewrite rbind_ok. split.
    + intros (ts & E & H). destruct cur; [discriminate|]. split; [reflexivity|]. exists ts. split; [auto|congruence].
    + intros (-> & ts & E & ->). exists ts. auto.
  - split; congruence.
Qed.
Lemma part_ok_cons srt cur d ds r :
  part_ok srt cur ((match d with Some d => [d] | None => [] end) ++ ds) r <->
  exists m, part_ok srt cur (match d with Some d => [d] | None => [] end) m /\ part_ok srt m ds r.
Proof.
  destruct d as [d|]; cbn [app].
  - split.
    + intros H. destruct ds as [|d2 ds]; [|destruct H]. exists r. split; [exact H|reflexivity].
    + intros (m & (C & ts & E & ->) & H). destruct ds as [|d2 [|]]; cbn in H.
      * subst r. split; eauto.
      * destruct H; discriminate.
      * destruct H.
  - split.
    + intros H. exists cur. split; [reflexivity|auto].
    + intros (m & -> & H). exact H.
Qed.
Lemma gen_step_ok srt st r st' : gen_step srt st r = Ok st' <->
  version_ok (g_version st) [version_of r] (g_version st') /\
  part_ok srt (g_cardinal st) (match su_cardinal r with Some d => [d] | None => [] end) (g_cardinal st') /\
  part_ok srt (g_ordinal st) (match su_ordinal r with Some d => [d] | None => [] end) (g_ordinal st').
Proof.
  unfold gen_step. rewrite rbind_ok. split.
  - intros (v & V & H). apply rbind_ok in H as (c & C & H). apply rbind_ok in H as (o & O & H). injection H as <-.
    cbn [g_version g_cardinal g_ordinal]. apply gen_part_ok in C, O. split; [|auto]. fold (version_of r) in V.
    destruct (g_version st) as [v0|].
    + destruct (bytes_eqb v0 (version_of r)) eqn:E; [|discriminate]. apply bytes_eqb_eq in E. injection V as <-. subst v0.
      cbn. repeat split; auto.
    + injection V as <-. cbn. repeat split; auto.
  - intros (V & C & O). destruct st' as [v c o]. cbn [g_version g_cardinal g_ordinal] in *.
    destruct V as (V & -> & _). exists (version_of r). split.
    + fold (version_of r). destruct V as [-> | ->]; [reflexivity|]. now rewrite bytes_eqb_refl.
    + apply gen_part_ok in C, O. rewrite C. cbn. rewrite O. reflexivity.
Qed.
Lemma gen_loop_ok srt jsons : forall st st', gen_loop srt st jsons = Ok st' <->
  exists rs, inputs_are jsons rs /\
    version_ok (g_version st) (List.map version_of rs) (g_version st') /\
    part_ok srt (g_cardinal st) (collect CARDINAL rs) (g_cardinal st') /\
    part_ok srt (g_ordinal st) (collect ORDINAL rs) (g_ordinal st').
Proof.
  induction jsons as [|j js IH]; intros st st'; cbn [gen_loop].
  - split.
    + intros H. injection H as <-. exists []. repeat split; constructor.
    + intros (rs & F & V & C & O). inversion F; subst. cbn in *. destruct st, st'; cbn in *. congruence.
  - rewrite rbind_ok. split.
    + intros (r & R & H). apply unwrap_ok in R. apply rbind_ok in H as (s1 & S & H). apply gen_step_ok in S as (V1 & C1 & O1).
      apply IH in H as (rs & F & V & C & O). exists (r :: rs). split; [constructor; [now apply resource_text_iff|exact F]|].
      unfold collect. cbn [flat_map List.map data_of].
      split; [|split; apply part_ok_cons; eauto].
      destruct V1 as (V1 & E1 & _). cbn [version_ok]. rewrite E1 in V. split; [auto|]. destruct rs as [|r2 rs]; cbn in V.
      * rewrite V. repeat constructor.
      * destruct V as ([V|V] & V2 & V3); [discriminate|]. injection V as V. rewrite V. split; [exact V2|]. constructor; [reflexivity|exact V3].
    + intros (rs & F & V & C & O). inversion F as [|? r ? rs' R F']; subst. exists r. split; [now apply unwrap_ok, resource_text_iff|].
      unfold collect in C, O. cbn [flat_map data_of] in C, O. apply part_ok_cons in C as (c & C1 & C). apply part_ok_cons in O as (o & O1 & O).
      apply rbind_ok. exists (mkGen (Some (version_of r)) c o). cbn [List.map version_ok] in V. destruct V as (V1 & V2 & V3).
      split; [apply gen_step_ok; cbn; repeat split; auto|]. apply IH. exists rs'. cbn [g_version g_cardinal g_ordinal].
      split; [auto|]. split; [|auto]. inversion V3 as [|? ? _ V4]; subst. destruct rs' as [|r2 rs']; [exact V2|].
      cbn [List.map version_ok]. inversion V4 as [|? ? E V5]; subst. rewrite <- E. split; [auto|]. split; [auto|]. constructor; auto.
Qed.

Definition table_stream (t : pr_type) (o : option (list (list token))) : list token :=
  match o with Some s => create_pr_type t s | None => [] end.
Definition file_tokens (num : Z) (c o : option (list (list token))) : list token :=
  ignore_noncritical_errors ++ use_statements ++ plural_function ++ version_item (Z.to_N (num mod 2 ^ 64)%Z)
  ++ langid_macro ++ table_stream CARDINAL c ++ table_stream ORDINAL o.
(** [generate_rs] in one step *)
Record gen_ok (srt : sorter) (rs : list supplemental) (v : bytes) (num : Z) (c o : option (list (list token))) : Prop := {
  ok_versions : Forall (fun r => version_of r = v) rs;
  ok_num : isize_from_str v = Some num;
  ok_cardinal : part_ok srt None (collect CARDINAL rs) c;
  ok_ordinal : part_ok srt None (collect ORDINAL rs) o;
  ok_some : c <> None \/ o <> None }.
Lemma generate_tokens_ok srt jsons ts : generate_tokens srt jsons = Ok ts <->
  exists rs v num c o, inputs_are jsons rs /\ gen_ok srt rs v num c o /\ ts = file_tokens num c o.
Proof.
  unfold generate_tokens. rewrite rbind_ok. split.
  - intros (st & L & F). apply gen_loop_ok in L as (rs & I & V & C & O). cbn [g_version g_cardinal g_ordinal] in *.
    unfold gen_finish in F. destruct (g_version st) as [v|] eqn:GV; [|discriminate].
    assert (K : (g_cardinal st <> None \/ g_ordinal st <> None) /\
      gen_fn (match g_cardinal st with Some s => [(CARDINAL, s)] | None => [] end
        ++ match g_ordinal st with Some s => [(ORDINAL, s)] | None => [] end) v = Ok ts).
    { destruct (g_cardinal st), (g_ordinal st); cbn [app] in *; try discriminate; (split; [|exact F]); try (now left); now right. }
    destruct K as [K G]. unfold gen_fn in G. apply rbind_ok in G as (num & N & G). apply unwrap_ok in N.
    match type of G with Ok ?x = Ok ts => assert (GE : ts = x) by congruence end. clear F G. subst ts.
    exists rs, v, num, (g_cardinal st), (g_ordinal st). split; [auto|]. split.
    + constructor; auto. destruct rs as [|r rs]; [constructor|]. cbn [List.map version_ok] in V. destruct V as (_ & V & W).
      injection V as ->. apply (proj1 (Forall_map version_of (eq (version_of r)) (r :: rs))) in W.
      eapply Forall_impl; [|exact W]. cbn. auto.
    + unfold file_tokens. repeat f_equal. destruct (g_cardinal st), (g_ordinal st); cbn; rewrite ?app_nil_r; reflexivity.
  - intros (rs & v & num & c & o & I & [OV ON OC OO OS] & ->). exists (mkGen (Some v) c o). split.
    + apply gen_loop_ok. exists rs. cbn [g_version g_cardinal g_ordinal]. split; [auto|]. split; [|auto].
      destruct rs as [|r rs].
      { cbn in OC, OO. subst. now destruct OS. }
      cbn [List.map version_ok]. inversion OV as [|? ? E E']; subst. split; [auto|]. split; [reflexivity|].
      constructor; [reflexivity|]. apply Forall_map. eapply Forall_impl; [|exact E']. cbn. auto.
    + unfold gen_finish. cbn [g_version g_cardinal g_ordinal]. unfold gen_fn. 
      destruct c, o; cbn [app]; try (now destruct OS); rewrite ON; cbn [unwrap rbind]; unfold file_tokens; repeat f_equal; cbn; rewrite ?app_nil_r; reflexivity.
Qed.
Lemma generate_ok srt jsons out : generate_rs srt jsons = Ok out <->
  exists rs v num c o, inputs_are jsons rs /\ gen_ok srt rs v num c o /\ out = print_tokens (file_tokens num c o).
Proof.
  unfold generate_rs. rewrite rbind_ok. split.
  - intros (ts & T & E). injection E as <-. apply generate_tokens_ok in T as (rs & v & num & c & o & I & G & ->).
    exists rs, v, num, c, o. auto.
  - intros (rs & v & num & c & o & I & G & ->). exists (file_tokens num c o). split; [|reflexivity].
    apply generate_tokens_ok. exists rs, v, num, c, o. auto.
Qed.
Lemma inputs_unique jsons rs rs' : inputs_are jsons rs -> inputs_are jsons rs' -> rs = rs'.
Proof.
  intros H. revert rs'. induction H; intros rs' H'; inversion H'; subst; [reflexivity|]. f_equal; [|auto].
  repeat match goal with R : resource_text _ _ |- _ => apply resource_text_iff in R end. congruence.
Qed.

(** ** C55: permutations *)
Lemma collect_perm t rs rs' : Permutation rs rs' -> Permutation (collect t rs) (collect t rs').
Proof. intros P. unfold collect. now apply Permutation_flat_map. Qed.
Lemma part_ok_perm srt cur ds ds' r : Permutation ds ds' -> part_ok srt cur ds r -> part_ok srt cur ds' r.
Proof.
  intros P H. destruct ds as [|d [|]]; cbn in H.
  - apply Permutation_nil in P. now subst.
  - apply Permutation_length_1_inv in P. now subst.
  - destruct H.
Qed.
Lemma Forall2_perm {A B} (R : A -> B -> Prop) l l' m : Permutation l l' -> Forall2 R l m ->
  exists m', Permutation m m' /\ Forall2 R l' m'.
Proof.
  intros P. revert m. induction P; intros m F.
  - inversion F; subst. exists []. auto.
  - inversion F as [|? y ? m1 X F1]; subst. destruct (IHP m1 F1) as (m' & P' & F'). exists (y :: m'). split; [now constructor|now constructor].
  - inversion F as [|? b ? m1 X F1]; subst. inversion F1 as [|? a ? m2 Y F2]; subst. exists (a :: b :: m2). split; [constructor|repeat constructor; auto].
  - destruct (IHP1 m F) as (m1 & Q1 & F1). destruct (IHP2 m1 F1) as (m2 & Q2 & F2). exists m2. split; [now transitivity m1|auto].
Qed.
Lemma gen_ok_perm srt rs rs' v num c o : Permutation rs rs' -> gen_ok srt rs v num c o -> gen_ok srt rs' v num c o.
Proof.
  intros P [V N C O S]. constructor; auto.
  - now apply (Permutation_Forall P).
  - eapply part_ok_perm; [|exact C]. now apply collect_perm.
  - eapply part_ok_perm; [|exact O]. now apply collect_perm.
Qed.
Lemma generate_perm srt jsons jsons' out : Permutation jsons jsons' ->
  generate_rs srt jsons = Ok out -> generate_rs srt jsons' = Ok out.
Proof.
  intros P H. apply generate_ok in H as (rs & v & num & c & o & I & G & ->). apply generate_ok.
  destruct (Forall2_perm _ _ _ _ P I) as (rs' & P' & I'). exists rs', v, num, c, o. split; [auto|]. split; [now apply (gen_ok_perm srt rs)|reflexivity].
Qed.
Definition same_outcome {A} (x y : res A) : Prop :=
  (exists a, x = Ok a /\ y = Ok a) \/ (exists w w', x = Panic w /\ y = Panic w').
Lemma generate_perm_outcome srt jsons jsons' : Permutation jsons jsons' ->
  same_outcome (generate_rs srt jsons) (generate_rs srt jsons').
Proof.
  intros P. destruct (generate_rs srt jsons) as [out|e|w] eqn:E.
  - left. exists out. split; [reflexivity|]. now apply (generate_perm srt jsons).
  - now apply generate_no_err in E.
  - destruct (generate_rs srt jsons') as [out|e|w'] eqn:E'.
    + apply (generate_perm srt jsons' jsons) in E'; [congruence|now symmetry].
    + now apply generate_no_err in E'.
    + right. eauto.
Qed.
End Width.
