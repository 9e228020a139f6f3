(** * What can be read back from a generated file (for C127) *)
From Coq Require Import Lia ZArith Sorting.Permutation.
From Verif Require Import Base Ast Operands CldrParser LangId Tokens GenPr GenRs Json MakeRules Spec CodeSpec FileSpec
  DigitFacts LangIdFacts LexFacts MakeFacts GenFacts MakeRead MakeBody MakeTable MakeProps MakeMore CodeProps SameSpec SameCode JsonDe Cldr GenMeaning Truncate Faithful SameAny.
Open Scope N_scope.

(** two rules that cannot be told apart from the generated file: the same category, the
    same code, and the same [parts] (SameSpec.v) where no list is empty *)
Definition same_rule (cc cc' : category * condition) : Prop :=
  fst cc = fst cc' /\ gen_pr (snd cc) = gen_pr (snd cc') /\
  (no_gaps (snd cc) -> no_gaps (snd cc') -> parts (snd cc) = parts (snd cc')).

Lemma same_rule_parts c co c' co' : no_gaps co -> lacks_ranges co = false -> no_gaps co' -> lacks_ranges co' = false ->
  (same_rule (c, co) (c', co') <-> c = c' /\ parts co = parts co').
Proof.
  intros N L N' L'. pose proof (C110_lemma co co' N L N' L') as K. unfold same_rule. cbn [fst snd]. split.
  - intros (E & G & _). split; [exact E|]. now apply K.
  - intros [E G]. split; [exact E|]. split; [now apply K|auto].
Qed.

Section Width.
Context {ptr : ptr_width}.

(** ** The arms of an entry *)
Lemma ret_inj c c' : ret c = ret c' -> c = c'.
Proof. destruct c, c'; intros H; try reflexivity; vm_compute in H; discriminate. Qed.
Lemma ret_brace c : exists g, ret c = TGroup DBrace g.
Proof. unfold ret, Brace. eauto. Qed.
Lemma chain_inj set : forall set', Forall (fun ce => Forall no_brace (snd ce)) set -> Forall (fun ce => Forall no_brace (snd ce)) set' ->
  chain_tokens set = chain_tokens set' -> set = set'.
Proof.
  induction set as [|[c e] set IH]; intros [|[c' e'] set'] F F' H; [reflexivity|discriminate|discriminate|].
  cbn [chain_tokens] in H. inversion F as [|? ? F1 F2]; subst. inversion F' as [|? ? F1' F2']; subst. cbn [snd] in *.
  injection H as H. destruct (ret_brace c) as [g G]. destruct (ret_brace c') as [g' G']. rewrite G, G' in H.
  pose proof (until_brace_at e g (I "else" :: chain_tokens set) F1 []) as U.
  pose proof (until_brace_at e' g' (I "else" :: chain_tokens set') F1' []) as U'.
  rewrite H, U' in U. cbn [rev app] in U. injection U as E1 E2 E3. subst e' g'. rewrite <- G' in G. apply ret_inj in G. subst c'.
  f_equal. now apply IH.
Qed.
(** ** An entry *)
Lemma par_inj a b : Par a = Par b -> a = b.
Proof. unfold Par. congruence. Qed.
Lemma one_inj (a b : token) : [a] = [b] -> a = b.
Proof. congruence. Qed.
Lemma mid_inj id id' r r' set set' : gen_lang_rules r = Ok set -> gen_lang_rules r' = Ok set' ->
  gen_mid id set = gen_mid id' set' -> gen_langid id = gen_langid id' /\ set = set'.
Proof.
  intros G G' H. pose proof (set_shape _ _ G) as [A B]. pose proof (set_shape _ _ G') as [A' B'].
  unfold gen_mid in H. rewrite (chain_eq _ A), (chain_eq _ A') in H. apply one_inj, par_inj in H.
  unfold gen_langid in *. cbn [app] in H.
  match type of H with I "langid" :: P "!" :: ?a :: ?x = I "langid" :: P "!" :: ?b :: ?y =>
    assert (E : a = b /\ x = y) by (split; congruence) end.
  destruct E as [E1 E2]. split; [cbn [app]; now rewrite E1|].
  apply chain_inj; auto. unfold Brace in E2. congruence.
Qed.
(** ** A table *)
Lemma sep_inj (ts : list (list token)) : forall ts', Forall (fun s => exists x, s = [x]) ts -> Forall (fun s => exists x, s = [x]) ts' ->
  sep_by [P ","] ts = sep_by [P ","] ts' -> ts = ts'.
Proof.
  induction ts as [|s ts IH]; intros [|s' ts'] F F' H; [reflexivity| | |].
  - inversion F' as [|? ? (x & ->) ?]; subst. now destruct ts'.
  - inversion F as [|? ? (x & ->) ?]; subst. now destruct ts.
  - inversion F as [|? ? (x & ->) F2]; subst. inversion F' as [|? ? (x' & ->) F2']; subst.
    destruct ts as [|s1 ts], ts' as [|s1' ts'].
    + cbn in H. congruence.
    + exfalso. cbn in H. discriminate.
    + exfalso. cbn in H. discriminate.
    + change ([x] ++ [P ","] ++ sep_by [P ","] (s1 :: ts) = [x'] ++ [P ","] ++ sep_by [P ","] (s1' :: ts')) in H.
      cbn [app] in H. injection H as Hx H. subst x'. f_equal. now apply IH.
Qed.
Lemma single_streams srt d ts : gen_type_rs srt d = Ok ts -> Forall (fun s => exists x, s = [x]) ts.
Proof.
  intros H. apply type_ok in H as (l & _ & H). induction H as [|? ? ? ? (set & _ & ->) F IH]; constructor; auto.
  unfold gen_mid. eauto.
Qed.
Definition singles (o : option (list (list token))) : Prop :=
  match o with Some ts => Forall (fun s => exists x, s = [x]) ts | None => True end.
Lemma pr_type_inj t ts ts' x y : singles (Some ts) -> singles (Some ts') ->
  create_pr_type t ts ++ x = create_pr_type t ts' ++ y -> ts = ts' /\ x = y.
Proof.
  intros F F' H. unfold create_pr_type in H. cbn [app] in H. unfold Bracket in H. 
  assert (E : sep_by [P ","] ts = sep_by [P ","] ts' /\ x = y) by (split; congruence). destruct E as [E1 E2]. split; [now apply sep_inj|exact E2].
Qed.
Lemma streams_inj c o c' o' : singles c -> singles o -> singles c' -> singles o' ->
  table_stream CARDINAL c ++ table_stream ORDINAL o = table_stream CARDINAL c' ++ table_stream ORDINAL o' -> c = c' /\ o = o'.
Proof.
  intros A B A' B' H.
  assert (K : forall o o', singles o -> singles o' -> table_stream ORDINAL o = table_stream ORDINAL o' -> o = o').
  { intros [p|] [q|] X Y E; [|discriminate|discriminate|reflexivity].
    cbn [table_stream] in E. f_equal. apply (pr_type_inj ORDINAL p q [] []); auto; now rewrite E. }
  destruct c as [p|], c' as [q|]; cbn [table_stream] in H.
  - apply pr_type_inj in H as [-> H]; auto.
  - exfalso. destruct o' as [o'|]; cbn in H; discriminate.
  - exfalso. destruct o as [o|]; cbn in H; discriminate.
  - split; [reflexivity|]. now apply K.
Qed.
Lemma tokens_inj num num' c o c' o' : singles c -> singles o -> singles c' -> singles o' ->
  file_tokens num c o = file_tokens num' c' o' -> (num mod 2 ^ 64 = num' mod 2 ^ 64)%Z /\ c = c' /\ o = o'.
Proof.
  intros A B A' B' H. unfold file_tokens in H. do 3 apply app_inv_head in H. unfold version_item in H. cbn [app] in H.
  assert (E : dec_of_N (Z.to_N (num mod 2 ^ 64)) = dec_of_N (Z.to_N (num' mod 2 ^ 64)) /\
    langid_macro ++ table_stream CARDINAL c ++ table_stream ORDINAL o = langid_macro ++ table_stream CARDINAL c' ++ table_stream ORDINAL o').
  { unfold lit_u64 in H. split; congruence. }
  clear H. destruct E as [E1 E2]. apply app_inv_head in E2. apply streams_inj in E2; auto. split; [|exact E2].
  apply dec_inj in E1. apply Z2N.inj in E1; [exact E1| |]; now apply Z.mod_pos_bound.
Qed.
Lemma version_range v z : version_number v z -> (- 2 ^ 63 <= z < 2 ^ 63)%Z.
Proof.
  assert (K : (0 < isize_end <= 2 ^ 63)%Z) by (unfold isize_end; destruct ptr; split; reflexivity || discriminate).
  intros (sg & ds & _ & _ & _ & [(_ & -> & L)|(_ & -> & L)]); lia.
Qed.

(** ** The locales of a table *)
Lemma Forall2_len {A B} (R : A -> B -> Prop) l m : Forall2 R l m -> List.length l = List.length m.
Proof. induction 1; cbn; congruence. Qed.
Lemma entries_back srt srt' d d' ts : sorts srt -> sorts srt' -> gen_type_rs srt d = Ok ts -> gen_type_rs srt' d' = Ok ts ->
  List.length (locales d) = List.length (locales d') /\
  forall key id cs, input_locale d key id cs -> exists key' id' cs', input_locale d' key' id' cs' /\
    drop_variants id = drop_variants id' /\ Forall2 same_rule (List.filter not_other cs) (List.filter not_other cs').
Proof.
  intros S S' G G'. apply type_ok in G as (l & P & F). apply type_ok in G' as (l' & P' & F').
  split.
  { pose proof (parse_keys_ids _ _ P) as Q. pose proof (parse_keys_ids _ _ P') as Q'. apply Forall2_len in Q, Q', F, F'.
    rewrite map_length in Q, Q'. rewrite <- (Permutation_length (proj1 (S _ l))) in F. rewrite <- (Permutation_length (proj1 (S' _ l'))) in F'. congruence. }
  intros key id cs (NR & LK & rules & J & RR). pose proof P as PK. apply parse_keys_ok in PK.
  assert (J0 : In (key, rules) (List.filter (fun kv : bytes * bmap bytes => negb (is_root (fst kv))) d)).
  { apply filter_In. split; [auto|]. now apply not_root_key. }
  destruct (Forall2_in_l _ _ _ _ PK J0) as ([id1 rules1] & J1 & A & B). cbn [fst snd] in *. subst rules1.
  rewrite LK in A. injection A as <-. apply (Permutation_in _ (proj1 (S _ l))) in J1.
  destruct (Forall2_in_l _ _ _ _ F J1) as (s & I1 & set & X & E). cbn [fst snd] in *.
  destruct (Forall2_in_r _ _ _ _ F' I1) as ([id' rules'] & J2 & set' & X' & E'). cbn [fst snd] in *.
  rewrite E in E'. destruct (mid_inj _ _ _ _ _ _ X X' E') as [L <-].
  apply (Permutation_in _ (Permutation_sym (proj1 (S' _ l')))) in J2.
  apply lang_rules_ok in X as (cs1 & C1 & C2). apply lang_rules_ok in X' as (cs2 & D1 & D2).
  rewrite (rule_reads_unique _ _ _ C1 RR) in C2. destruct (input_locale_of d' l' id' rules' cs2 P' J2 D1) as (key' & IL).
  exists key', id', cs2. split; [exact IL|]. split.
  - destruct IL as (_ & LK' & _). now apply (C58_lemma _ _ _ _ LK LK').
  - clear - C2 D2. revert D2. generalize (List.filter not_other cs2). induction C2 as [|[c co] [c1 ts] m set [Y1 Y2] F IH]; intros m' D2;
      inversion D2 as [|[c' co'] ? m1 ? [Z1 Z2] D3]; subst; constructor; auto. cbn [fst snd] in *. unfold same_rule. cbn [fst snd].
    split; [congruence|]. split; [congruence|]. intros N N'.
    destruct (lacks_ranges co) eqn:Q; [rewrite (gen_lack co Q) in Y2; discriminate|].
    destruct (lacks_ranges co') eqn:Q'; [rewrite (gen_lack co' Q') in Z2; discriminate|].
    apply (C110_lemma co co'); auto. congruence.
Qed.
Lemma part_singles srt ds r : part_ok srt None ds r -> singles r.
Proof.
  intros H. apply part_stream in H. destruct ds as [|d [|]]; [now subst| |easy]. destruct H as (ts & T & ->). exact (single_streams _ _ _ T).
Qed.
Lemma resources_same jsons rs rs' : inputs_are jsons rs -> inputs_are jsons rs' -> rs = rs'.
Proof.
  intros A. revert rs'. induction A as [|j r js rs R F IH]; intros rs' B; inversion B as [|? r' ? rs2 R' F']; subst; [reflexivity|].
  apply resource_text_iff in R, R'. f_equal; [congruence|auto].
Qed.
Theorem C127_lemma srt srt' jsons jsons' rs rs' out : sorts srt -> sorts srt' ->
  inputs_are jsons rs -> inputs_are jsons' rs' -> generate_rs srt jsons = Ok out -> generate_rs srt' jsons' = Ok out ->
  (forall r r' z z', In r rs -> In r' rs' -> version_number (version_of r) z -> version_number (version_of r') z' -> z = z') /\
  forall t r d, In r rs -> data_of t r = Some d -> exists r' d', In r' rs' /\ data_of t r' = Some d' /\
    List.length (locales d) = List.length (locales d') /\
    forall key id cs, input_locale d key id cs -> exists key' id' cs', input_locale d' key' id' cs' /\
      drop_variants id = drop_variants id' /\ Forall2 same_rule (List.filter not_other cs) (List.filter not_other cs').
Proof.
  intros S S' I I' G G'. apply generate_lex in G as (rs1 & v & num & c & o & I1 & G & L). apply generate_lex in G' as (rs2 & v' & num' & c' & o' & I2 & G' & L').
  rewrite (resources_same _ _ _ I1 I) in *. rewrite (resources_same _ _ _ I2 I') in *. clear I1 I2 rs1 rs2.
  rewrite L in L'. assert (E : file_tokens num c o = file_tokens num' c' o') by congruence. clear L L'.
  pose proof (gen_part_of _ _ _ _ _ _ CARDINAL G) as Pc. pose proof (gen_part_of _ _ _ _ _ _ ORDINAL G) as Po.
  pose proof (gen_part_of _ _ _ _ _ _ CARDINAL G') as Pc'. pose proof (gen_part_of _ _ _ _ _ _ ORDINAL G') as Po'.
  cbn [stream_of] in *.
  apply tokens_inj in E as (N & Ec & Eo); [|now apply part_singles in Pc|now apply part_singles in Po|now apply part_singles in Pc'|now apply part_singles in Po'].
  subst c' o'. split.
  - intros r r' z z' R R' V V'. pose proof (version_range _ _ V). pose proof (version_range _ _ V').
    pose proof (ok_versions _ _ _ _ _ _ G) as W. pose proof (ok_versions _ _ _ _ _ _ G') as W'. rewrite Forall_forall in W, W'.
    rewrite (W r R) in V. rewrite (W' r' R') in V'. pose proof (ok_num _ _ _ _ _ _ G) as M. pose proof (ok_num _ _ _ _ _ _ G') as M'.
    apply isize_iff in V, V'. assert (z = num) by congruence. assert (z' = num') by congruence. subst z z'.
    clear - N H H0. rewrite (Z.div_mod num (2 ^ 64)), (Z.div_mod num' (2 ^ 64)), N by discriminate.
    pose proof (Z.div_mod num (2 ^ 64)). pose proof (Z.div_mod num' (2 ^ 64)). pose proof (Z.mod_pos_bound num' (2 ^ 64) eq_refl). lia.
  - intros t r d R D. pose proof (gen_part_of _ _ _ _ _ _ t G) as P. pose proof (gen_part_of _ _ _ _ _ _ t G') as P'.
    apply part_stream in P, P'. assert (K : In d (collect t rs)) by (apply collect_in; eauto).
    destruct (collect t rs) as [|d1 [|]] eqn:C; [destruct K| |easy]. destruct K as [->|[]]. destruct P as (ts & T & P).
    destruct (collect t rs') as [|d' [|]] eqn:C'; [congruence| |easy]. destruct P' as (ts' & T' & P'). rewrite P in P'. injection P' as <-.
    assert (K : In d' (collect t rs')) by (rewrite C'; now left). apply collect_in in K as (r' & R' & D').
    exists r', d'. split; [auto|]. split; [auto|]. exact (entries_back srt srt' d d' ts S S' T T').
Qed.
End Width.

(** ** The meaning of the rules *)
(** rules of which the generated code shows everything (C103, C110) *)
Definition clear_rules (p : relation -> Prop) (cs : list (category * condition)) : Prop :=
  forall c co, In (c, co) cs -> c <> OTHER -> no_gaps co /\ all_clear p co.
Lemma filter_select cs d c : cldr_select cs d c <-> cldr_select (List.filter not_other cs) d c.
Proof.
  split; [|apply select_filter]. intros [(N & co & J & U)|(-> & H)]; [left|right].
  - split; [auto|]. exists co. split; [|auto]. apply filter_In. split; [auto|]. unfold not_other. cbn. now destruct c.
  - split; [reflexivity|]. intros c' co J N. apply filter_In in J as [J _]. eauto.
Qed.
Lemma same_select (m m' : list (category * condition)) d :
  Forall2 (fun cc cc' => fst cc = fst cc' /\ uts_condition (snd cc) d = uts_condition (snd cc') d) m m' ->
  forall c, cldr_select m d c -> cldr_select m' d c.
Proof.
  intros F c [(N & co & J & U)|(-> & H)]; [left|right].
  - split; [auto|]. destruct (Forall2_in_l _ _ _ _ F J) as ([c' co'] & J' & A & B). cbn [fst snd] in *. subst c'. exists co'. split; [auto|congruence].
  - split; [reflexivity|]. intros c' co' J' N. destruct (Forall2_in_r _ _ _ _ F J') as ([c1 co1] & J & A & B). cbn [fst snd] in *. subst c1.
    rewrite <- B. eauto.
Qed.
Lemma rules_meaning p cs cs' d :
  (forall co co', no_gaps co -> no_gaps co' -> gen_pr co = gen_pr co' -> all_clear p co -> all_clear p co' -> uts_condition co d = uts_condition co' d) ->
  Forall2 same_rule (List.filter not_other cs) (List.filter not_other cs') -> clear_rules p cs -> clear_rules p cs' ->
  forall c, cldr_select cs d c <-> cldr_select cs' d c.
Proof.
  intros M F C C' c. rewrite (filter_select cs), (filter_select cs').
  assert (K : Forall2 (fun cc cc' => fst cc = fst cc' /\ uts_condition (snd cc) d = uts_condition (snd cc') d) (List.filter not_other cs) (List.filter not_other cs')).
  { assert (X : forall cs, clear_rules p cs -> Forall (fun cc => no_gaps (snd cc) /\ all_clear p (snd cc)) (List.filter not_other cs)).
    { intros q Q. apply Forall_forall. intros [a co] J. apply filter_In in J as [J1 J2]. apply (Q a co J1). now intros ->. }
    pose proof (X _ C) as A. pose proof (X _ C') as A'. clear - F A A' M.
    induction F as [|[a co] [a' co'] m m' (S1 & S2 & _) F IH]; constructor.
    - inversion A as [|? ? [A1 A2] _]; subst. inversion A' as [|? ? [A1' A2'] _]; subst. split; [exact S1|]. now apply M.
    - inversion A; subst. inversion A'; subst. now apply IH. }
  split; apply same_select; [exact K|]. clear - K. induction K as [|x y m m' [A B] K IH]; constructor; auto.
Qed.
Lemma C127_meaning_lemma cs cs' : Forall2 same_rule (List.filter not_other cs) (List.filter not_other cs') ->
  (clear_rules shows cs -> clear_rules shows cs' -> forall d, proper d -> forall c, cldr_select cs d c <-> cldr_select cs' d c) /\
  (clear_rules shows_on_integers cs -> clear_rules shows_on_integers cs' ->
   forall x c, cldr_select cs (mkDecimal x []) c <-> cldr_select cs' (mkDecimal x []) c).
Proof.
  intros F. split.
  - intros C C' d Pd. apply (rules_meaning shows); auto. intros co co' N N' G A A'. now apply (proj1 (C110_any_lemma co co' N N' G)).
  - intros C C' x. apply (rules_meaning shows_on_integers); auto. intros co co' N N' G A A'. now apply (proj2 (C110_any_lemma co co' N N' G)).
Qed.
