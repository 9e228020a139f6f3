(** * Exactly when two inputs give the same file (for C128) *)
From Coq Require Import Lia ZArith Sorting.Permutation.
From Verif Require Import Base Ast Operands CldrParser LangId Tokens GenPr GenRs Json MakeRules Spec CodeSpec FileSpec
  DigitFacts LangIdFacts LexFacts MakeFacts GenFacts MakeRead MakeBody MakeTable MakeProps MakeMore CodeProps SameSpec SameCode JsonDe SameBack.
Open Scope N_scope.

(** the keys of one type name different languages, scripts and regions *)
Definition keys_differ (d : rule_map) : Prop :=
  forall ids, Forall2 (fun k id => langid_from_str k = Some id) (locales d) ids -> NoDup (List.map drop_variants ids).
(** every locale of [d] is a locale of [d'] with rules that cannot be told apart *)
Definition locales_in {ptr : ptr_width} (d d' : rule_map) : Prop :=
  forall key id cs, input_locale d key id cs -> exists key' id' cs', input_locale d' key' id' cs' /\
    drop_variants id = drop_variants id' /\ Forall2 same_rule (List.filter not_other cs) (List.filter not_other cs').
(** every table of [rs] is one of [rs'] *)
Definition tables_in {ptr : ptr_width} (rs rs' : list supplemental) : Prop :=
  forall t r d, In r rs -> data_of t r = Some d -> exists r' d', In r' rs' /\ data_of t r' = Some d' /\
    List.length (locales d) = List.length (locales d') /\ locales_in d d'.
Definition versions_same {ptr : ptr_width} (rs rs' : list supplemental) : Prop :=
  forall r r' z z', In r rs -> In r' rs' -> version_number (version_of r) z -> version_number (version_of r') z' -> z = z'.

Section Width.
Context {ptr : ptr_width}.

Definition shown (ir : langid * bmap bytes) : langid * res (list (category * list token)) :=
  (drop_variants (fst ir), gen_lang_rules (snd ir)).
Lemma streams_shown (l : list (langid * bmap bytes)) ts :
  Forall2 (fun ir s => exists set, gen_lang_rules (snd ir) = Ok set /\ s = gen_mid (fst ir) set) l ts ->
  Forall2 (fun x s => exists set, snd x = Ok set /\ s = gen_mid (fst x) set) (List.map shown l) ts.
Proof. induction 1 as [|[id r] s l ts (set & A & ->) F IH]; constructor; auto. exists set. split; [exact A|reflexivity]. Qed.
Lemma shown_streams (m : list (langid * res (list (category * list token)))) ts ts' :
  Forall2 (fun x s => exists set, snd x = Ok set /\ s = gen_mid (fst x) set) m ts ->
  Forall2 (fun x s => exists set, snd x = Ok set /\ s = gen_mid (fst x) set) m ts' -> ts = ts'.
Proof.
  intros F. revert ts'. induction F as [|x s m ts (set & A & ->) F IH]; intros ts' G; inversion G as [|? ? ? ? (set' & A' & ->) G']; subst; [reflexivity|].
  f_equal; [congruence|auto].
Qed.
Lemma rules_transport rules cs cs' rules' set : gen_lang_rules rules = Ok set -> Forall2 rule_reads rules cs -> Forall2 rule_reads rules' cs' ->
  Forall2 same_rule (List.filter not_other cs) (List.filter not_other cs') -> gen_lang_rules rules' = Ok set.
Proof.
  intros G R R' F. apply lang_rules_ok in G as (cs1 & C1 & C2). rewrite (rule_reads_unique _ _ _ C1 R) in C2.
  apply lang_rules_ok. exists cs'. split; [exact R'|]. clear - C2 F. revert set C2.
  induction F as [|[c co] [c' co'] m m' (A & B & _) F IH]; intros set C2; inversion C2 as [|? [c1 ts] ? ? [X Y] C3]; subst; constructor; auto.
  cbn [fst snd] in *. split; congruence.
Qed.
Lemma streams_same srt srt' d d' ts ts' : sorts srt -> sorts srt' -> keys_differ d ->
  List.length (locales d) = List.length (locales d') -> locales_in d d' ->
  gen_type_rs srt d = Ok ts -> gen_type_rs srt' d' = Ok ts' -> ts = ts'.
Proof.
  intros S S' D L M G G'. apply type_ok in G as (l & P & F). apply type_ok in G' as (l' & P' & F').
  apply streams_shown in F. apply streams_shown in F'.
  assert (N : NoDup (List.map fst (List.map shown (srt _ l)))).
  { pose proof (D _ (parse_keys_ids _ _ P)) as N. rewrite map_map in *. cbn [shown fst].
    apply (Permutation_NoDup (Permutation_map (fun x => drop_variants (fst x)) (proj1 (S _ l))) N). }
  assert (Len : List.length (srt _ l) = List.length (srt' _ l')).
  { rewrite <- (Permutation_length (proj1 (S _ l))), <- (Permutation_length (proj1 (S' _ l'))).
    pose proof (Forall2_len _ _ _ (parse_keys_ids _ _ P)) as Q. pose proof (Forall2_len _ _ _ (parse_keys_ids _ _ P')) as Q'.
    rewrite map_length in Q, Q'. congruence. }
  assert (E : List.map shown (srt _ l) = List.map shown (srt' _ l')).
  { apply MakeMore.sorted_unique; [| exact N | |].
    - apply NoDup_Permutation_bis; [exact (NoDup_map_inv _ _ N)|rewrite !map_length, Len; apply le_n|].
      intros x X. apply in_map_iff in X as ([id rules] & <- & J). 
      assert (J0 : In (id, rules) l) by exact (Permutation_in _ (Permutation_sym (proj1 (S _ l))) J).
      assert (K : exists set, gen_lang_rules rules = Ok set).
      { destruct (Forall2_in_l _ _ _ _ F (in_map shown _ _ J)) as (s & _ & set & A & _). exists set. exact A. }
      destruct K as (set & A). pose proof A as A0. apply lang_rules_ok in A0 as (cs & C1 & _).
      destruct (input_locale_of d l id rules cs P J0 C1) as (key & IL).
      destruct (M key id cs IL) as (key' & id' & cs' & (NR & LK & rules' & J' & RR) & E1 & E2).
      pose proof P' as PK. apply parse_keys_ok in PK.
      assert (J1 : In (key', rules') (List.filter (fun kv : bytes * bmap bytes => negb (is_root (fst kv))) d')).
      { apply filter_In. split; [auto|]. now apply not_root_key. }
      destruct (Forall2_in_l _ _ _ _ PK J1) as ([id1 rules1] & J2 & X1 & X2). cbn [fst snd] in *. subst rules1.
      rewrite LK in X1. injection X1 as <-. apply (Permutation_in _ (proj1 (S' _ l'))) in J2.
      apply in_map_iff. exists (id', rules'). split; [|exact J2]. unfold shown. cbn [fst snd]. rewrite E1. f_equal.
      rewrite A. exact (rules_transport _ _ _ _ _ A C1 RR E2).
    - rewrite map_map. cbn [shown fst]. rewrite <- (map_map fst drop_variants). apply sorted_drop. exact (proj2 (S _ l)).
    - rewrite map_map. cbn [shown fst]. rewrite <- (map_map fst drop_variants). apply sorted_drop. exact (proj2 (S' _ l')). }
  rewrite E in F. exact (shown_streams _ _ _ F F').
Qed.
Lemma part_same srt srt' rs rs' t x x' : sorts srt -> sorts srt' -> (forall r d, In r rs -> data_of t r = Some d -> keys_differ d) ->
  tables_in rs rs' -> tables_in rs' rs -> part_ok srt None (collect t rs) x -> part_ok srt' None (collect t rs') x' -> x = x'.
Proof.
  intros S S' D T T' P P'. apply part_stream in P, P'.
  assert (K : forall rs rs' d, tables_in rs rs' -> In d (collect t rs) -> exists d', In d' (collect t rs') /\ List.length (locales d) = List.length (locales d') /\ locales_in d d').
  { intros q q' d Q J. apply collect_in in J as (r & R & E). destruct (Q t r d R E) as (r' & d' & R' & E' & L & M). exists d'. split; [|auto]. apply collect_in. eauto. }
  pose proof (fun d => K rs rs' d T) as K1. pose proof (fun d => K rs' rs d T') as K2. clear K.
  assert (D1 : forall d, In d (collect t rs) -> keys_differ d).
  { intros d J. apply collect_in in J as (r & R & E). eauto. }
  destruct (collect t rs) as [|d [|]]; [| |easy]; destruct (collect t rs') as [|d' [|]]; try easy.
  - congruence.
  - destruct (K2 d') as (d1 & J & _); [now left|destruct J].
  - destruct (K1 d) as (d1 & J & _); [now left|destruct J].
  - destruct P as (ts & G & ->). destruct P' as (ts' & G' & ->). f_equal.
    destruct (K1 d) as (d1 & [<-|[]] & L & M); [now left|].
    apply (streams_same srt srt' d d' ts ts'); auto. apply D1. now left.
Qed.
Lemma C128_lemma srt srt' jsons jsons' rs rs' out out' : sorts srt -> sorts srt' ->
  inputs_are jsons rs -> inputs_are jsons' rs' -> generate_rs srt jsons = Ok out -> generate_rs srt' jsons' = Ok out' ->
  (forall r t d, In r rs -> data_of t r = Some d -> keys_differ d) ->
  (out = out' <-> versions_same rs rs' /\ tables_in rs rs' /\ tables_in rs' rs).
Proof.
  intros S S' I I' G G' D. split.
  - intros <-. destruct (C127_lemma _ _ _ _ _ _ _ S S' I I' G G') as [V T]. destruct (C127_lemma _ _ _ _ _ _ _ S' S I' I G' G) as [_ T'].
    split; [exact V|]. split; [exact T|exact T'].
  - intros (V & T & T'). apply generate_ok in G as (rs1 & v & num & c & o & I1 & G & ->). apply generate_ok in G' as (rs2 & v' & num' & c' & o' & I2 & G' & ->).
    rewrite (resources_same _ _ _ I1 I) in *. rewrite (resources_same _ _ _ I2 I') in *. clear I1 I2 rs1 rs2.
    assert (Ec : c = c').
    { apply (part_same srt srt' rs rs' CARDINAL); auto; [intros r d; apply D|exact (ok_cardinal _ _ _ _ _ _ G)|exact (ok_cardinal _ _ _ _ _ _ G')]. }
    assert (Eo : o = o').
    { apply (part_same srt srt' rs rs' ORDINAL); auto; [intros r d; apply D|exact (ok_ordinal _ _ _ _ _ _ G)|exact (ok_ordinal _ _ _ _ _ _ G')]. }
    assert (En : num = num').
    { assert (X : exists r t d, In r rs /\ data_of t r = Some d).
      { destruct (ok_some _ _ _ _ _ _ G) as [N|N].
        - pose proof (part_stream _ _ _ (ok_cardinal _ _ _ _ _ _ G)) as Q. destruct (collect CARDINAL rs) as [|d q] eqn:C; [congruence|].
          assert (J : In d (collect CARDINAL rs)) by (rewrite C; now left). apply collect_in in J as (r & R & E). eauto.
        - pose proof (part_stream _ _ _ (ok_ordinal _ _ _ _ _ _ G)) as Q. destruct (collect ORDINAL rs) as [|d q] eqn:C; [congruence|].
          assert (J : In d (collect ORDINAL rs)) by (rewrite C; now left). apply collect_in in J as (r & R & E). eauto. }
      destruct X as (r & t & d & R & E). destruct (T t r d R E) as (r' & d' & R' & _).
      pose proof (ok_versions _ _ _ _ _ _ G) as W. pose proof (ok_versions _ _ _ _ _ _ G') as W'. rewrite Forall_forall in W, W'.
      apply (V r r' num num' R R'); apply isize_iff; [rewrite (W r R)|rewrite (W' r' R')].
      - exact (ok_num _ _ _ _ _ _ G).
      - exact (ok_num _ _ _ _ _ _ G'). }
    now subst.
Qed.
End Width.
