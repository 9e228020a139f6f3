(** * The rule parser on 32-bit and 64-bit machines (C80) *)
From Coq Require Import Lia.
From Verif Require Import Base Nom Ast CldrParser GenRs Json Cldr Spec DigitFacts Grammar ParserFacts ParserComplete
  ParserProps PrinterFacts ParserExact.
Open Scope N_scope.

Definition fits32 : bytes -> Prop := @numbers_fit W32.
Lemma fits32_rest s r : fits32 (s ++ r) -> fits32 r.
Proof. intro H. apply (@numbers_fit_sub W32 s r []). now rewrite app_nil_r. Qed.

(** two parsers that agree on the texts with small numbers, and leave such a text *)
Definition same {A} (p q : parser A) : Prop :=
  forall i, fits32 i -> p i = q i /\ forall r a, q i = PO r a -> fits32 r.

Lemma sound_same {A} (p : parser A) g : sound p g -> same p p.
Proof. intros S i F. split; [reflexivity|]. intros r a E. apply S in E as (s & -> & _). now apply fits32_rest in F. Qed.
Lemma value_same : same (@p_value W32) (@p_value W64).
Proof.
  intros i F. split.
  - unfold p_value, pmap_res, pbind, digit1. pose proof (span_spec is_digit i) as S.
    destruct (span is_digit i) as [x y]. destruct S as (-> & D & _). destruct x as [|c x]; [reflexivity|].
    apply digits_forallb in D. specialize (F [] (c :: x) y eq_refl D).
    rewrite (@usize_from_str_digits W32), (@usize_from_str_digits W64); auto; try discriminate.
    unfold usize_limit in *. lia.
  - intros r a E. apply (@value_sound W64) in E as (s & -> & _). now apply fits32_rest in F.
Qed.
Lemma pmap_same {A B} (f : A -> B) p q : same p q -> same (pmap f p) (pmap f q).
Proof.
  intros S i F. destruct (S i F) as [E K]. unfold pmap, pbind. rewrite E. split; [reflexivity|].
  intros r a H. destruct (q i) as [r' a'| |]; try discriminate. injection H as <- _. eauto.
Qed.
Lemma popt_same {A} (p q : parser A) : same p q -> same (popt p) (popt q).
Proof.
  intros S i F. destruct (S i F) as [E K]. unfold popt. rewrite E. split; [reflexivity|].
  intros r a H. destruct (q i) as [r' a'| |]; try discriminate; injection H as <- _; eauto.
Qed.
Lemma palt_same {A} (p q p' q' : parser A) : same p q -> same p' q' -> same (palt p p') (palt q q').
Proof.
  intros S S' i F. destruct (S i F) as [E K]. destruct (S' i F) as [E' K']. unfold palt. rewrite E, E'.
  split; [reflexivity|]. intros r a H. destruct (q i) as [r' b| |] eqn:Q; try discriminate; eauto.
Qed.
Lemma pseq_same {A B} (p q : parser A) (p' q' : parser B) : same p q -> same p' q' -> same (pseq p p') (pseq q q').
Proof.
  intros S S' i F. destruct (S i F) as [E K]. unfold pseq, pbind. rewrite E.
  destruct (q i) as [r a| |]; [|split; [reflexivity|discriminate]..].
  destruct (S' r (K r a eq_refl)) as [E' K']. rewrite E'. split; [reflexivity|].
  intros r2 b H. destruct (q' r) as [r' b'| |]; try discriminate. injection H as <- _. eauto.
Qed.
Lemma preceded_same {A B} (p q : parser A) (p' q' : parser B) : same p q -> same p' q' -> same (preceded p p') (preceded q q').
Proof.
  intros S S' i F. destruct (S i F) as [E K]. unfold preceded, pbind. rewrite E.
  destruct (q i) as [r a| |]; [|split; [reflexivity|discriminate]..]. exact (S' r (K r a eq_refl)).
Qed.
Lemma separated_pair_same {A B C} (p q : parser A) (m m' : parser B) (p' q' : parser C) :
  same p q -> same m m' -> same p' q' -> same (separated_pair p m p') (separated_pair q m' q').
Proof.
  intros S M S' i F. destruct (S i F) as [E K]. unfold separated_pair, pbind. rewrite E.
  destruct (q i) as [r a| |]; [|split; [reflexivity|discriminate]..].
  destruct (M r (K r a eq_refl)) as [EM KM]. rewrite EM.
  destruct (m' r) as [r1 b| |]; [|split; [reflexivity|discriminate]..].
  destruct (S' r1 (KM r1 b eq_refl)) as [E' K']. rewrite E'. split; [reflexivity|].
  intros r2 c H. destruct (q' r1) as [r' c'| |]; try discriminate. injection H as <- _. eauto.
Qed.
Lemma sep_loop_same {A B} (sep : parser B) (p q : parser A) : same sep sep -> same p q ->
  forall fuel i acc, fits32 i -> sep_loop fuel sep p i acc = sep_loop fuel sep q i acc /\
    forall r l, sep_loop fuel sep q i acc = PO r l -> fits32 r.
Proof.
  intros S P. induction fuel as [|fuel IH]; intros i acc F; cbn [sep_loop]; [split; [reflexivity|discriminate]|].
  assert (Stop : forall r l, PO i (rev acc) = PO r l -> fits32 r) by (intros r l H; injection H as <- _; exact F).
  destruct (S i F) as [_ K]. destruct (sep i) as [i1 x| |]; [|split; [reflexivity|exact Stop]|split; [reflexivity|discriminate]].
  specialize (K i1 x eq_refl). destruct (bytes_eqb i1 i); [split; [reflexivity|discriminate]|].
  destruct (P i1 K) as [E K']. rewrite E.
  destruct (q i1) as [i2 a| |]; [|split; [reflexivity|exact Stop]|split; [reflexivity|discriminate]].
  destruct (bytes_eqb i2 i); [split; [reflexivity|discriminate]|]. apply IH. exact (K' i2 a eq_refl).
Qed.
Lemma separated_list_same {A B} (sep : parser B) (p q : parser A) : same sep sep -> same p q ->
  same (separated_list sep p) (separated_list sep q).
Proof.
  intros S P i F. unfold separated_list. destruct (P i F) as [E K]. rewrite E.
  destruct (q i) as [i1 a| |]; [|split; [reflexivity|intros r l H; injection H as <- _; exact F]|split; [reflexivity|discriminate]].
  destruct (bytes_eqb i1 i); [split; [reflexivity|discriminate]|]. apply (sep_loop_same sep p q S P). exact (K i1 a eq_refl).
Qed.
Lemma separated_nonempty_list_same {A B} (sep : parser B) (p q : parser A) : same sep sep -> same p q ->
  same (separated_nonempty_list sep p) (separated_nonempty_list sep q).
Proof.
  intros S P i F. unfold separated_nonempty_list. destruct (P i F) as [E K]. rewrite E.
  destruct (q i) as [i1 a| |]; [|split; [reflexivity|discriminate]..].
  destruct (bytes_eqb i1 i); [split; [reflexivity|discriminate]|]. apply (sep_loop_same sep p q S P). exact (K i1 a eq_refl).
Qed.

Lemma space0_same : same space0 space0. Proof. exact (sound_same _ _ space0_sound). Qed.
Lemma space1_same : same space1 space1. Proof. exact (sound_same _ _ space1_sound). Qed.
Lemma tag_same t : same (tag t) (tag t). Proof. exact (sound_same _ _ (tag_sound t)). Qed.
Lemma comma_same : same p_comma p_comma. Proof. exact (sound_same _ _ comma_sound). Qed.
Lemma word_same w : same (p_word w) (p_word w). Proof. exact (sound_same _ _ (word_sound w)). Qed.
Lemma operator_same : same p_relation_operator p_relation_operator. Proof. exact (sound_same _ _ operator_sound). Qed.
Lemma operand_same : same p_operand p_operand. Proof. exact (sound_same _ _ operand_sound). Qed.

Lemma item_same : same (@p_range_list_item W32) (@p_range_list_item W64).
Proof.
  apply palt_same; apply pmap_same; [apply pmap_same, separated_pair_same|]; auto using value_same, tag_same.
Qed.
Lemma relation_same : same (@p_relation W32) (@p_relation W64).
Proof.
  apply pmap_same, pseq_same; [apply pmap_same, pseq_same; [exact operand_same|]|].
  - apply popt_same, preceded_same; [|exact value_same].
    apply pseq_same; [exact space0_same|]. apply pseq_same; [apply palt_same; apply tag_same|exact space1_same].
  - apply pseq_same; [exact space0_same|]. apply pseq_same; [exact operator_same|].
    apply pseq_same; [exact space0_same|]. apply separated_list_same; [exact comma_same|exact item_same].
Qed.
Lemma or_same : same (@p_or W32) (@p_or W64).
Proof.
  apply separated_nonempty_list_same; [apply word_same|]. apply separated_nonempty_list_same; [apply word_same|exact relation_same].
Qed.
Lemma condition_same : same (@p_condition W32) (@p_condition W64).
Proof.
  intros i F. unfold p_condition. destruct (trim i) as [|c r].
  - split; [reflexivity|]. intros x y H. injection H as <- _. exact (@numbers_fit_nil W32).
  - destruct (c =? 64); [|exact (or_same i F)].
    split; [reflexivity|]. intros x y H. injection H as <- _. exact (@numbers_fit_nil W32).
Qed.
Lemma decimal_same : same (@p_decimal_value W32) (@p_decimal_value W64).
Proof. apply pmap_same, pseq_same; [exact value_same|]. apply popt_same, preceded_same; [apply tag_same|exact value_same]. Qed.
Lemma sample_list_same : same (@p_sample_list W32) (@p_sample_list W64).
Proof.
  apply pmap_same, pseq_same.
  - apply separated_nonempty_list_same; [exact comma_same|]. apply pmap_same, pseq_same; [exact decimal_same|].
    apply popt_same, preceded_same; [|exact decimal_same].
    apply pseq_same; [exact space0_same|]. apply pseq_same; [apply tag_same|exact space0_same].
  - apply popt_same, preceded_same; [exact comma_same|]. apply palt_same; apply tag_same.
Qed.
Lemma samples_same : same (@p_samples W32) (@p_samples W64).
Proof.
  apply pmap_same, pseq_same; apply popt_same, preceded_same; auto using word_same, sample_list_same.
Qed.

Lemma C80_same_lemma s : @numbers_fit W32 s ->
  @parse_plural_rule W32 s = @parse_plural_rule W64 s /\ @parse_plural_condition W32 s = @parse_plural_condition W64 s.
Proof.
  intro F. split.
  - unfold parse_plural_rule, p_rule.
    destruct (pmap_same (fun '(c, s) => mkRule c s) _ _ (pseq_same _ _ _ _ condition_same samples_same) s F) as [E _].
    now rewrite E.
  - unfold parse_plural_condition. now rewrite (proj1 (condition_same s F)).
Qed.
Lemma C80_rule_lemma s r : @parse_plural_rule W32 s = Ok r -> @parse_plural_rule W64 s = Ok r.
Proof.
  intro H. destruct (@rule_sound W32 s r H) as [[N ->]|[N _]].
  - apply (@parse_rule_exact W64). now left.
  - rewrite <- H. symmetry. apply C80_same_lemma. now apply (@numbers_fit_rule W32 s r).
Qed.

(** ** The shipped data *)
Fixpoint runs_below (max acc : N) (s : bytes) : bool :=
  match s with
  | [] => true
  | c :: r => if is_digit c then let a := 10 * acc + digit_val c in (a <? max) && runs_below max a r
              else runs_below max 0 r
  end.
Lemma runs_below_start max s : forall acc, runs_below max acc s = true -> acc < max ->
  forall ds b, s = ds ++ b -> digits ds -> acc * 10 ^ N.of_nat (List.length ds) + dval ds < max.
Proof.
  induction s as [|c s IH]; intros acc H A ds b E D.
  - destruct ds; [|discriminate]. cbn. lia.
  - destruct ds as [|x ds]; [cbn; lia|]. cbn in E. injection E as <- E. apply digits_cons in D as [C D].
    cbn [runs_below] in H. rewrite (proj2 (is_digit_iff c) C) in H. cbv zeta in H.
    apply andb_prop in H as [H1 H2]. apply N.ltb_lt in H1. specialize (IH _ H2 H1 ds b E D).
    cbn [dval List.length]. rewrite Nat2N.inj_succ, N.pow_succ_r'. unfold digit_val in *. lia.
Qed.
Lemma runs_below_any max s : forall acc, runs_below max acc s = true -> acc < max ->
  forall a ds b, s = a ++ ds ++ b -> digits ds -> dval ds < max.
Proof.
  induction s as [|c s IH]; intros acc H A a ds b E D.
  - destruct a; [|discriminate]. destruct ds; [|discriminate]. cbn. lia.
  - destruct a as [|x a].
    + pose proof (runs_below_start max _ acc H A ds b E D). lia.
    + cbn in E. injection E as <- E. cbn [runs_below] in H. destruct (is_digit c).
      * apply andb_prop in H as [H1 H2]. apply N.ltb_lt in H1. exact (IH _ H2 H1 a ds b E D).
      * exact (IH 0 H ltac:(lia) a ds b E D).
Qed.
Definition texts32 (t : pr_type) : bool :=
  match rule_map_of t (cldr_json t) with
  | Some m => forallb (fun '(_, rs) => forallb (fun '(_, text) => runs_below (2 ^ 32) 0 text) rs) m
  | None => false
  end.
Lemma texts32_true t : texts32 t = true.
Proof. destruct t; vm_compute; reflexivity. Qed.
Lemma C80_data_lemma t m key rs name text :
  rule_map_of t (cldr_json t) = Some m -> In (key, rs) m -> In (name, text) rs ->
  @parse_plural_rule W32 text = @parse_plural_rule W64 text /\
  @parse_plural_condition W32 text = @parse_plural_condition W64 text.
Proof.
  intros M I J. apply C80_same_lemma. pose proof (texts32_true t) as T. unfold texts32 in T. rewrite M in T.
  rewrite forallb_forall in T. specialize (T _ I). cbn beta iota in T. rewrite forallb_forall in T. specialize (T _ J).
  cbn beta iota in T. intros a ds b E D. exact (runs_below_any _ _ 0 T eq_refl a ds b E D).
Qed.

(** ** Exactly which rules a 32-bit machine accepts *)
Lemma C80_exact_lemma s r : @parse_plural_rule W64 s = Ok r ->
  (@parse_plural_rule W32 s = Ok r <-> no_condition s \/ @numbers_fit W32 s) /\
  (@parse_plural_rule W32 s = Ok r \/ exists m, @parse_plural_rule W32 s = Err m).
Proof.
  intros H. split.
  - split.
    + intros K. destruct (@rule_sound W32 s r K) as [[N _]|[N _]]; [now left|right]. now apply (@numbers_fit_rule W32 s r).
    + intros [N|F]; [|now rewrite (proj1 (C80_same_lemma s F))].
      pose proof (proj1 (@no_condition_rule W64 s) N) as K. rewrite K in H. injection H as <-. now apply (@no_condition_rule W32).
  - destruct (@parse_plural_rule W32 s) as [r'|m|m] eqn:K.
    + left. apply C80_rule_lemma in K. congruence.
    + right. now exists m.
    + exfalso. exact (proj1 (@no_panic W32 s) m K).
Qed.
