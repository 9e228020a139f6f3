(** * C88 for floating-point numbers of any size *)
From Coq Require Import Lia Lra Reals Floats.SpecFloat.
From Flocq Require Import Core IEEE754.BinarySingleNaN.
From Verif Require Import Base F64 Operands Ast LangId GenRs PluralRules Tables Json Cldr Spec SpecR F64Facts ApiProps
  DigitFacts OperandsFacts OperandsProps FloatProps Shortest Represents Conformance ConformanceProps FloatConf BehaviourSpec
  LengthSpec SpellingProps LengthProps.
Open Scope N_scope.

Lemma zero_decimal s : exists dd, shortest_decimal 0 0 (S754_zero false) /\ shortest_decimal32 0 0 (S754_zero false) /\
  decimal_of 0 0 dd /\ numeral (f64_to_string (S754_zero s)) dd /\ numeral (f32_to_string (S754_zero s)) dd.
Proof.
  exists (mkDecimal 0 []). split; [|split; [|split; [|split]]].
  - split; [|split; [intros ? ? k _ H; exfalso; pose proof (N.pow_nonzero 10 k); lia|intros d' E' _ _; apply closer_zero]].
    left. rewrite Rmult_0_l, round_0 by auto with typeclass_instances. split; [apply bpow_gt_0|]. cbn. auto.
  - split; [|split; [intros ? ? k _ H; exfalso; pose proof (N.pow_nonzero 10 k); lia|intros d' E' _ _; apply closer_zero]].
    left. rewrite Rmult_0_l, round_0 by auto with typeclass_instances. split; [apply bpow_gt_0|]. cbn. auto.
  - split; [reflexivity|]. split; [reflexivity|constructor].
  - destruct s; [exists (bs "-")|exists []]; exists (bs "0"), []; repeat split; try easy; try (now left); try (now right);
      repeat constructor; unfold digit_char; easy.
  - destruct s; [exists (bs "-")|exists []]; exists (bs "0"), []; repeat split; try easy; try (now left); try (now right);
      repeat constructor; unfold digit_char; easy.
Qed.
Lemma f64_numeral x : valid64 x -> is_finite_SF x = true ->
  exists d E dd, shortest_decimal d E (SFabs x) /\ (d = 0 \/ d mod 10 <> 0) /\ decimal_of d E dd /\ numeral (f64_to_string x) dd.
Proof.
  intros V F. destruct x as [s|s| |s m e]; try discriminate F.
  - destruct (zero_decimal s) as (dd & A & _ & B & C & _). exists 0, 0%Z, dd. auto.
  - cbn [SFabs] in *.
    destruct (f64_printed s m e V) as (d & E & Q & X & P & B & M & Mx & Sh & Cl).
    destruct (printed_numeral _ d E (minus_opt_sign s) P M) as (dd & Nu & De & _).
    exists d, E, dd. split; [|split; [now right|split; [exact De|now rewrite Q]]].
    split; [now apply nearest64_dec|]. split; [intros d' E' k H L; apply nearest64_dec in H; eauto|].
    intros d' E' H L. apply nearest64_dec in H. now apply Cl.
Qed.
Lemma f32_numeral x : valid32 x -> is_finite_SF x = true ->
  exists d E dd, shortest_decimal32 d E (SFabs x) /\ (d = 0 \/ d mod 10 <> 0) /\ decimal_of d E dd /\ numeral (f32_to_string x) dd.
Proof.
  intros V F. destruct x as [s|s| |s m e]; try discriminate F.
  - destruct (zero_decimal s) as (dd & _ & A & B & _ & C). exists 0, 0%Z, dd. auto.
  - cbn [SFabs] in *.
    destruct (f32_printed' s m e V) as (d & E & Q & X & P & M & LE & Sh & Cl).
    destruct (printed_numeral _ d E (minus_opt_sign s) (proj1 P) M) as (dd & Nu & De & _).
    exists d, E, dd. split; [|split; [now right|split; [exact De|now rewrite Q]]].
    split; [now apply nearest32_iff|]. split; [intros d' E' k H L; apply nearest32_iff in H; eauto|].
    intros d' E' H L. apply nearest32_iff in H; auto. now apply Cl.
Qed.
Lemma C88_f64_lemma how id t pr w x : create how id t = Ok pr -> listed id (any_length t) = true ->
  valid64 x -> is_finite_SF x = true ->
  exists d E dd rules c, shortest_decimal d E (SFabs x) /\ (d = 0 \/ d mod 10 <> 0) /\ decimal_of d E dd /\
    In (id, rules) (cldr t) /\ select w pr (InF64 x) = Ok c /\ cldr_select rules dd c.
Proof.
  intros C L V F. destruct (f64_numeral x V F) as (d & E & dd & A1 & A2 & A3 & A4).
  assert (Ac : accepted (f64_to_string x)) by (apply accepted_iff; exact (C16_f64 x V F)).
  destruct (C88_safe_lemma how id t pr w _ dd C L A4 Ac) as (rules & c & B1 & B2 & B3).
  exists d, E, dd, rules, c. auto 10.
Qed.
Lemma C88_f32_lemma how id t pr w x : create how id t = Ok pr -> listed id (any_length t) = true ->
  valid32 x -> is_finite_SF x = true ->
  exists d E dd rules c, shortest_decimal32 d E (SFabs x) /\ (d = 0 \/ d mod 10 <> 0) /\ decimal_of d E dd /\
    In (id, rules) (cldr t) /\ select w pr (InF32 x) = Ok c /\ cldr_select rules dd c.
Proof.
  intros C L V F. destruct (f32_numeral x V F) as (d & E & dd & A1 & A2 & A3 & A4).
  assert (Ac : accepted (f32_to_string x)) by (apply accepted_iff; exact (C16_f32 x V F)).
  destruct (C88_safe_lemma how id t pr w _ dd C L A4 Ac) as (rules & c & B1 & B2 & B3).
  exists d, E, dd, rules, c. auto 10.
Qed.
