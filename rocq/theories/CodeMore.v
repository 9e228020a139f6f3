(** * C91 for parsed conditions, C92: what every generated function does *)
From Coq Require Import Lia Sorting.Permutation.
From Verif Require Import Base F64 Operands Ast CldrParser LangId Tokens GenPr GenRs Json JsonSpec JsonDe MakeRules RustExpr Spec Grammar ParserProps
  FileSpec MakeFacts MakeRead MakeTable MakeBody MakeProps MakeMore CodeSpec GenFacts GenMeaning CodeProps.
Open Scope N_scope.

Lemma usize_le {ptr : ptr_width} : usize_limit <= 2 ^ 64.
Proof. unfold usize_limit. destruct ptr; vm_compute; discriminate. Qed.
Lemma parsed_fits {ptr : ptr_width} c : condition_fits c -> lacks_ranges c = false ->
  code_fits c = negb (existsb (existsb zero_modulus) c).
Proof.
  pose proof (@usize_le ptr) as U. intros F L. unfold condition_fits in F. unfold code_fits, lacks_ranges in *.
  induction F as [|a c A F IH]; [reflexivity|]. cbn [forallb existsb] in *. apply Bool.orb_false_elim in L as [L1 L2].
  rewrite Bool.negb_orb, (IH L2). f_equal. clear IH F L2. induction A as [|r a R A IH]; [reflexivity|].
  cbn [forallb existsb] in *. apply Bool.orb_false_elim in L1 as [L1 L2]. rewrite Bool.negb_orb, (IH L2). f_equal. clear IH A L2.
  destruct R as [M I]. destruct r as [[o m] op l]. cbn [rel_expr rel_list ex_modulus] in *.
  assert (V : forall ex v, value_fits v -> literal_fits ex v = true).
  { intros ex v H. unfold literal_fits. apply Bool.orb_true_iff. right. apply N.ltb_lt. unfold value_fits in H. lia. }
  assert (MF : modulus_fits (mkExpr o m) = match m with Some 0 => false | _ => true end).
  { unfold modulus_fits. cbn [ex_modulus]. destruct m as [[|p]|]; try reflexivity. apply N.ltb_lt. unfold value_fits in M. lia. }
  assert (W : forall op, op = OpWithin \/ op = OpNotWithin -> lacks_range (mkRel (mkExpr o m) op l) = false ->
    code_relation_fits (mkRel (mkExpr o m) op l) = negb (zero_modulus (mkRel (mkExpr o m) op l))).
  { intros op' O LR. unfold lacks_range, code_relation_fits, zero_modulus in *. cbn [rel_op rel_list rel_expr ex_modulus] in *. rewrite MF.
    assert (K : match first_range l with Some x => value_fits (lower_val x) /\ value_fits (upper_val x) | None => True end).
    { clear -I. induction I as [|[x|v] l X I IH]; cbn [first_range]; auto. }
    destruct O as [->| ->]; destruct (first_range l) as [x|]; try discriminate; rewrite !V by apply K; destruct m as [[|p]|]; reflexivity. }
  assert (E : forallb (code_item_fits (mkExpr o m)) l =
    negb match m with Some 0 => existsb (fun it => match it with RValue _ => true | RRange _ => negb (on_n (mkExpr o m)) end) l | _ => false end).
  { assert (IT : forall it, item_fits it -> code_item_fits (mkExpr o m) it =
      negb match m with Some 0 => match it with RValue _ => true | RRange _ => negb (on_n (mkExpr o m)) end | _ => false end).
    { intros it H. destruct it as [x|v]; cbn [code_item_fits item_fits] in *; rewrite MF.
      - destruct H as [H1 H2]. unfold value_fits in *. rewrite !(proj2 (N.ltb_lt _ _)) by lia.
        destruct m as [[|p]|]; rewrite ?Bool.orb_true_r, ?Bool.orb_false_r, ?Bool.andb_true_r, ?Bool.negb_involutive; reflexivity.
      - rewrite V by assumption. destruct m as [[|p]|]; reflexivity. }
    clear -IT I. induction I as [|it l X I IH].
    - now destruct m as [[|p]|].
    - cbn [forallb]. rewrite (IT it X), IH. destruct m as [[|p]|]; cbn [existsb]; [|reflexivity|reflexivity]. now rewrite Bool.negb_orb. }
  destruct op; try (apply W; [now auto|exact L1]); exact E.
Qed.

(** a condition that was read from the output has no empty list *)
Lemma read_no_gaps c ts e : gen_pr c = Ok ts -> read_bexpr ts = Some e -> lacks_ranges c = false /\ no_gaps c.
Proof.
  intros G R. destruct (lacks_ranges c) eqn:L; [rewrite (gen_lack c L) in G; discriminate|]. split; [reflexivity|].
  destruct (gen_no_lack c L) as (ts' & G' & H). rewrite G in G'. injection G' as <-.
  assert (D : no_gaps c \/ ~ no_gaps c).
  { unfold no_gaps. destruct c as [|a0 c0]; [right; now intros []|].
    destruct (Forall_dec (fun a : and_condition => a <> [] /\ Forall (fun r => rel_list r <> []) a)) with (l := a0 :: c0) as [X|X].
    - intro a. destruct a as [|r a]; [right; now intros []|].
      destruct (Forall_dec (fun r => rel_list r <> [])) with (l := r :: a) as [Y|Y].
      + intro x. destruct (rel_list x); [right|left]; easy.
      + now left.
      + right. now intros [].
    - now left.
    - right. now intros []. }
  destruct D as [D|D]; [assumption|]. rewrite (H D) in R. discriminate.
Qed.
Lemma arm_meaning cc arm : arm_of cc arm -> compiles (fst arm) = code_fits (snd cc) /\ snd arm = fst cc /\
  (code_fits (snd cc) = true -> forall po, eval (fst arm) po = Ok (code_condition (snd cc) po)).
Proof.
  intros (S & ts & G & R). destruct (read_no_gaps _ _ _ G R) as [L N]. destruct (C91_lemma _ N L) as (ts' & e & G' & R' & C & E).
  rewrite G in G'. injection G' as <-. rewrite R in R'. injection R' as <-. auto.
Qed.
Lemma arms_meaning cs arms : Forall2 arm_of (List.filter not_other cs) arms ->
  forallb (fun '(e, _) => compiles e) arms = forallb (fun cc => code_fits (snd cc)) (List.filter not_other cs) /\
  (forallb (fun '(e, _) => compiles e) arms = true -> forall po, eval_arms arms OTHER po = Ok (code_select cs po)).
Proof.
  intro F.
  assert (S : forall po, code_select cs po =
    match List.find (fun cc => code_condition (snd cc) po) (List.filter not_other cs) with Some (c, _) => c | None => OTHER end).
  { intro po. unfold code_select. clear F. induction cs as [|[c co] cs IH]; [reflexivity|]. cbn [List.find List.filter].
    unfold not_other at 1. cbn [fst snd]. destruct c; cbn [List.find snd]; try exact IH; destruct (code_condition co po); auto. }
  assert (K : forallb (fun '(e, _) => compiles e) arms = forallb (fun cc => code_fits (snd cc)) (List.filter not_other cs) /\
    (forallb (fun '(e, _) => compiles e) arms = true -> forall po, eval_arms arms OTHER po =
       Ok (match List.find (fun cc => code_condition (snd cc) po) (List.filter not_other cs) with Some (c, _) => c | None => OTHER end))).
  { clear S. induction F as [|[c co] [e c'] m arms A F [IH1 IH2]]; [split; reflexivity|].
    destruct (arm_meaning _ _ A) as (A1 & A2 & A3). cbn [fst snd] in *. subst c'. cbn [forallb snd]. rewrite A1, IH1. split; [reflexivity|].
    intros H po. apply andb_prop in H as [H1 H2]. cbn [eval_arms List.find snd]. rewrite (A3 H1 po). cbn [rbind].
    destruct (code_condition co po); [reflexivity|]. apply IH2. now rewrite IH1. }
  destruct K as [K1 K2]. split; [assumption|]. intros H po. rewrite S. now apply K2.
Qed.
Lemma C92_lemma {ptr : ptr_width} srt jsons out rs t r d : sorts srt -> generate_rs srt jsons = Ok out -> inputs_are jsons rs ->
  In r rs -> data_of t r = Some d ->
  (forall key id cs, input_locale d key id cs -> li_language id <> None /\ forall c co, In (c, co) cs -> c <> OTHER -> no_gaps co) ->
  exists tbl, output_table t out = Some tbl /\
    forall key id cs, input_locale d key id cs ->
    exists b, In (drop_variants id, b) tbl /\
      body_compiles b = forallb (fun cc => code_fits (snd cc)) (List.filter not_other cs) /\
      (body_compiles b = true -> forall po, eval_body b po = Ok (code_select cs po)).
Proof.
  intros S G I R D H.
  assert (AC : acceptable rs).
  { destruct (proj1 (C64_lemma srt jsons S) (ex_intro _ out G)) as (rs' & I' & AC). now rewrite (inputs_unique _ _ _ I I'). }
  apply (generate_table _ _ _ t) in G as (rs' & I' & T). rewrite (inputs_unique _ _ _ I I') in *. clear I'.
  assert (RD : forall key id cs, input_locale d key id cs -> readable_rules cs).
  { intros key id cs IL c co J N. apply nonempty_of; [exact (proj2 (H _ _ _ IL) c co J N)|].
    destruct IL as (NR & _ & rules & K & F). destruct (ac_data _ AC r t d R D key rules K NR) as [_ OK].
    destruct (Forall2_in_r _ _ _ _ F J) as ([n tx] & J' & part & P1 & P2 & P3). cbn [fst snd] in *.
    rewrite Forall_forall in OK. destruct (OK _ J') as (part' & co' & c' & Q1 & Q2 & Q3 & Q4). cbn [fst snd] in *.
    apply third_part_iff in P1, Q1. rewrite P1 in Q1. injection Q1 as <-. apply names_iff in P2, Q2. rewrite <- P2 in Q2. subst c'.
    rewrite P3 in Q3. injection Q3 as <-. apply generable_iff in Q4 as (ts & G); [|congruence].
    destruct (lacks_ranges co) eqn:L; [|reflexivity]. rewrite (gen_lack co L) in G. discriminate. }
  destruct (table_readable _ _ _ _ r d S T R D) as (tbl & O). { intros key id cs IL. split; [exact (proj1 (H _ _ _ IL))|exact (RD _ _ _ IL)]. }
  exists tbl. split; [assumption|]. intros key id cs IL. destruct (table_has _ _ _ _ r d tbl key id cs S T R D O IL) as (b & B1 & B2 & B3).
  exists b. split; [assumption|]. destruct (arms_meaning cs (b_arms b) B3) as [A1 A2]. split; [exact A1|]. intros C po. unfold eval_body. rewrite B2. now apply A2.
Qed.
(** conversely the table can only be read when no list is empty *)
Lemma C92_gaps {ptr : ptr_width} srt jsons out rs t r d tbl key id cs c co : sorts srt -> generate_rs srt jsons = Ok out -> inputs_are jsons rs ->
  In r rs -> data_of t r = Some d -> output_table t out = Some tbl -> input_locale d key id cs -> In (c, co) cs -> c <> OTHER -> no_gaps co.
Proof.
  intros S G I R D O IL J N. apply (generate_table _ _ _ t) in G as (rs' & I' & T). rewrite (inputs_unique _ _ _ I I') in *.
  destruct (table_has _ _ _ _ r d tbl key id cs S T R D O IL) as (b & B1 & B2 & B3).
  assert (J' : In (c, co) (List.filter not_other cs)) by (apply filter_In; split; [assumption|unfold not_other; cbn; now destruct c]).
  destruct (Forall2_in_l _ _ _ _ B3 J') as (arm & _ & _ & ts & E & F). exact (proj2 (read_no_gaps _ _ _ E F)).
Qed.
