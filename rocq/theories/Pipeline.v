(** * The library over the tables of any generated file

    [create_in]/[select] (PluralRules.v) are the library's functions for any
    table; here the table is the one read from the text that [generate_rs]
    returns. *)
From Flocq Require Import IEEE754.BinarySingleNaN.
From Coq Require Import Lia Reals Sorted Sorting.Permutation Floats.SpecFloat.
From Verif Require Import Base F64 SpecR Operands Ast CldrParser LangId LangIdFacts LangOrder Tokens GenRs Json JsonSpec MakeRules RustExpr Spec
  PluralRules Tables DigitFacts OperandsProps GenMeaning Cldr Represents Conformance ConformanceProps FloatConf ApiProps FileSpec MakeFacts MakeRead MakeTable MakeBody
  MakeProps MakeMore ExpLocale CodeSpec CodeMore.
Open Scope N_scope.

Section Width.
Context {ptr : ptr_width}.

(** ** Specification *)
(** the locales of the data stay apart when variants are left out *)
Definition plain_distinct (d : rule_map) : Prop :=
  forall ids, Forall2 (fun k id => langid_from_str k = Some id) (locales d) ids -> NoDup (List.map drop_variants ids).
(** the answers for every input type are those of UTS #35; with [ai] for integral numbers only *)
Record follows (ai : bool) (w : ptr_width) (pr : plural_rules) (cs : list (category * condition)) : Prop := {
  fo_text s dec : numeral s dec -> small dec -> (ai = true -> integral dec = true) ->
    exists c, select w pr (InStr s) = Ok c /\ select w pr (InString s) = Ok c /\ cldr_select cs dec c;
  fo_unsigned x : x < 2 ^ 64 -> exists c, select w pr (InUnsigned x) = Ok c /\ cldr_select cs (mkDecimal x []) c;
  fo_signed z : (Z.abs z < match w with W32 => 2 ^ 31 | W64 => 2 ^ 63 end)%Z ->
    exists c, select w pr (InSigned z) = Ok c /\ cldr_select cs (mkDecimal (Z.to_N (Z.abs z)) []) c;
  fo_f64 x : valid64 x -> is_finite_SF x = true -> below_2_53 (SFabs x) ->
    exists d E dd, shortest_decimal d E (SFabs x) /\ (d = 0 \/ d mod 10 <> 0) /\ decimal_of d E dd /\
      ((ai = true -> integral dd = true) -> exists c, select w pr (InF64 x) = Ok c /\ cldr_select cs dd c);
  fo_f32 x : valid32 x -> is_finite_SF x = true -> below_2_53 (SFabs x) ->
    exists d E dd, shortest_decimal32 d E (SFabs x) /\ (d = 0 \/ d mod 10 <> 0) /\ decimal_of d E dd /\
      ((ai = true -> integral dd = true) -> exists c, select w pr (InF32 x) = Ok c /\ cldr_select cs dd c) }.

(** ** Lookup *)
Lemma increasing_strong l : ids_increasing l -> StronglySorted lt_id l.
Proof.
  intros H. apply Sorted_StronglySorted; [intros a b c; apply langid_compare_lt_trans|].
  induction l as [|a l IH]; [constructor|]. destruct l as [|b l]; [repeat constructor|]. destruct H as [H1 H2].
  constructor; [now apply IH|]. constructor. now apply id_less_iff.
Qed.
Lemma lookup srt jsons out rs t r d tbl : sorts srt -> generate_rs srt jsons = Ok out -> inputs_are jsons rs ->
  In r rs -> data_of t r = Some d -> plain_distinct d -> output_table t out = Some tbl ->
  StronglySorted lt_id (List.map fst tbl) /\
  forall id, In id (List.map fst tbl) <-> exists key id0 cs, input_locale d key id0 cs /\ id = drop_variants id0.
Proof.
  intros S G I R D PD O. apply (generate_table _ _ _ t) in G as (rs' & I' & T). rewrite (inputs_unique _ _ _ I I') in *. clear I I' rs.
  assert (U : forall r' d', In r' rs' -> data_of t r' = Some d' -> d' = d).
  { destruct T as [N _|r0 d0 l ts R0 D0 P0 U _ _ _ _ _]; [rewrite (N r R) in D; discriminate|]. intros. rewrite (U r R d D). eauto. }
  destruct (table_entries _ _ _ _ _ S T O) as (r0 & d0 & l & R0 & D0 & P & F). rewrite (U _ _ R0 D0) in *. clear r0 d0 R0 D0 U T.
  assert (K : List.map fst tbl = List.map drop_variants (List.map fst (srt _ l))).
  { clear - F. induction F as [|[id x] [k b] ? ? (A & _) F IH]; [reflexivity|]. cbn [List.map fst] in *. now rewrite IH, A. }
  assert (PM : Permutation (List.map drop_variants (List.map fst l)) (List.map fst tbl)).
  { rewrite K. apply Permutation_map, Permutation_map, (proj1 (S _ l)). }
  split.
  - apply increasing_strong, sorted_increasing.
    + rewrite K. apply sorted_drop, (proj2 (S _ l)).
    + apply (Permutation_NoDup PM), PD. now apply parse_keys_ids.
  - intros id. split.
    + intros J. apply in_map_iff in J as ((k & b) & E & J). cbn [fst] in E. subst k.
      destruct (Forall2_in_r _ _ _ _ F J) as ([id0 rules] & L & A & _ & cs & C1 & _). cbn [fst snd] in *.
      apply (Permutation_in _ (Permutation_sym (proj1 (S _ l)))) in L.
      destruct (input_locale_of d l id0 rules cs P L C1) as (key & Q). eauto 6.
    + intros (key & id0 & cs & (N & L & rules & J & _) & ->). apply (Permutation_in _ PM). apply in_map.
      pose proof (parse_keys_ids _ _ P) as Q. unfold parsed_keys in Q.
      assert (KK : In key (locales d)).
      { unfold locales. apply filter_In. split; [now apply in_map with (f := fst) in J|]. unfold is_root. apply negb_true_iff.
        destruct (bytes_eqb key (bs "root")) eqn:E; [|reflexivity]. now apply bytes_eqb_eq in E. }
      clear - Q KK L. induction Q as [|k i ? ? A B IH]; [destruct KK|]. destruct KK as [->|KK]; [left; congruence|right; auto].
Qed.
Lemma found how (tbl : table) id b : StronglySorted lt_id (List.map fst tbl) -> In (id, b) tbl -> create_in how tbl id = Ok (mkPR id b).
Proof.
  intros SS J. destruct (create_in_spec how tbl id SS) as [(b' & B & E)|(N & _)].
  - now rewrite <- (ApiProps.sorted_unique tbl id b' b SS B J).
  - exfalso. apply N. now apply in_map with (f := fst) in J.
Qed.

(** ** C102 *)
Lemma signed_abs w z : (Z.abs z < match w with W32 => 2 ^ 31 | W64 => 2 ^ 63 end)%Z ->
  operands_from_signed w z = Ok (operands_from_unsigned (Z.to_N (Z.abs z))).
Proof.
  intros H. assert (K : operands_from_signed w (Z.abs z) = operands_from_signed w z).
  { destruct (Z.abs_eq_or_opp z) as [->| ->]; [reflexivity|apply C14_lemma]. }
  rewrite <- K. assert (X : Z.to_N (Z.abs z) < match w with W32 => 2 ^ 31 | W64 => 2 ^ 63 end).
  { destruct w; [change (2 ^ 31) with 2147483648; change (2 ^ 31)%Z with 2147483648%Z in H
                |change (2 ^ 63) with 9223372036854775808; change (2 ^ 63)%Z with 9223372036854775808%Z in H]; lia. }
  destruct (C98_signed_lemma w (mkPR (mkLang None None None None) (mkBody [] OTHER)) _ X) as [E _]. cbn [to_operands] in E.
  rewrite Z2N.id in E by apply Z.abs_nonneg. exact E.
Qed.
Lemma follows_of ai w id b cs :
  (forall po dec, represents po dec -> proper dec -> (ai = true -> uts_f dec = 0) ->
     exists c, eval_body b po = Ok c /\ cldr_select cs dec c) ->
  follows ai w (mkPR id b) cs.
Proof.
  intros E. constructor.
  - intros s dec Nm Sm AI. destruct (numeral_represents s dec Nm Sm) as (po & PO & RP).
    destruct (E po dec RP (numeral_proper s dec Nm)) as (c & C1 & C2); [intro Q; now apply N.eqb_eq, AI|].
    assert (K : select w (mkPR id b) (InStr s) = Ok c) by (unfold select; cbn [to_operands]; now rewrite PO).
    exists c. split; [exact K|]. split; [|exact C2]. now rewrite (proj2 (C98_string_lemma w (mkPR id b) s)).
  - intros x X. unfold select. cbn [to_operands]. apply E; [now apply unsigned_represents|constructor|reflexivity].
  - intros z Z. unfold select. cbn [to_operands]. rewrite (signed_abs w z Z). apply E; [|constructor|reflexivity].
    apply unsigned_represents. destruct w; [change (2 ^ 31)%Z with 2147483648%Z in Z|change (2 ^ 63)%Z with 9223372036854775808%Z in Z];
      change (2 ^ 64) with 18446744073709551616; lia.
  - intros x V F L. destruct (f64_represents x V F L) as (d & e & dd & po & A1 & A2 & A3 & A4 & A5 & A6).
    exists d, e, dd. split; [auto|]. split; [auto|]. split; [auto|]. intros AI. unfold select. cbn [to_operands]. rewrite A5.
    apply (E po dd A6 (numeral_proper _ _ A4)). intro Q. now apply N.eqb_eq, AI.
  - intros x V F L. destruct (f32_represents x V F L) as (d & e & dd & po & A1 & A2 & A3 & A4 & A5 & A6).
    exists d, e, dd. split; [auto|]. split; [auto|]. split; [auto|]. intros AI. unfold select. cbn [to_operands]. rewrite A5.
    apply (E po dd A6 (numeral_proper _ _ A4)). intro Q. now apply N.eqb_eq, AI.
Qed.
Lemma C102_lemma srt jsons out rs t r d ai : sorts srt -> generate_rs srt jsons = Ok out -> inputs_are jsons rs ->
  In r rs -> data_of t r = Some d -> plain_distinct d ->
  (forall key id cs, input_locale d key id cs -> locale_supported ai id cs) ->
  exists tbl, output_table t out = Some tbl /\ forall how,
    (forall id, (exists pr, create_in how tbl id = Ok pr) <-> exists key id0 cs, input_locale d key id0 cs /\ id = drop_variants id0) /\
    (forall id, ~ (exists pr, create_in how tbl id = Ok pr) -> create_in how tbl id = Err "unknown locale") /\
    forall key id cs, input_locale d key id cs ->
    exists pr, create_in how tbl (drop_variants id) = Ok pr /\ get_locale pr = drop_variants id /\
      forall w, follows ai w pr cs.
Proof.
  intros S G I R D PD H. destruct (C63_represents _ _ _ _ _ _ _ _ S G I R D H) as (tbl & O & K). exists tbl. split; [auto|].
  destruct (lookup _ _ _ _ _ _ _ _ S G I R D PD O) as [SS L]. intros how.
  assert (C : forall id, (exists pr, create_in how tbl id = Ok pr) <-> In id (List.map fst tbl)).
  { intros id. destruct (create_in_spec how tbl id SS) as [(b & B & E)|(N & E)]; rewrite E.
    - split; [|eauto]. intros _. now apply in_map with (f := fst) in B.
    - split; [intros (pr & Q); discriminate|intros Q; contradiction]. }
  split; [intros id; rewrite C; apply L|]. split.
  - intros id N. destruct (create_in_spec how tbl id SS) as [(b & B & E)|(_ & E)]; [|exact E]. exfalso. apply N. eauto.
  - intros key id cs IL. destruct (K key id cs IL) as (b & B & E). exists (mkPR (drop_variants id) b).
    split; [now apply found|]. split; [reflexivity|]. intros w. now apply follows_of.
Qed.
(** the same for every rule the generator accepts, with what its code tests *)
Lemma C102_code_lemma srt jsons out rs t r d : sorts srt -> generate_rs srt jsons = Ok out -> inputs_are jsons rs ->
  In r rs -> data_of t r = Some d -> plain_distinct d ->
  (forall key id cs, input_locale d key id cs -> li_language id <> None /\
     forall c co, In (c, co) cs -> c <> OTHER -> no_gaps co /\ code_fits co = true) ->
  exists tbl, output_table t out = Some tbl /\ forall how key id cs, input_locale d key id cs ->
    exists pr, create_in how tbl (drop_variants id) = Ok pr /\
      forall w x po, to_operands w x = Ok po -> select w pr x = Ok (code_select cs po).
Proof.
  intros S G I R D PD H.
  destruct (C92_lemma _ _ _ _ _ _ _ S G I R D) as (tbl & O & K).
  { intros key id cs IL. destruct (H _ _ _ IL) as [A B]. split; [auto|]. intros c co J N. now apply (B c co). }
  exists tbl. split; [auto|]. destruct (lookup _ _ _ _ _ _ _ _ S G I R D PD O) as [SS _]. intros how key id cs IL.
  destruct (K key id cs IL) as (b & B & BC & E). exists (mkPR (drop_variants id) b). split; [now apply found|].
  intros w x po TO. unfold select. rewrite TO. cbn [pr_function]. apply E. rewrite BC. apply forallb_forall.
  intros [c co] J. apply filter_In in J as [J N]. cbn [snd]. destruct (H _ _ _ IL) as [_ Q]. apply (Q c co J). now destruct c.
Qed.
End Width.
