(** * Inputs whose rules generate the same code (C110) *)
From Verif Require Import Base Ast CldrParser LangId GenPr GenRs Json JsonDe MakeRules Grammar CodeSpec FileSpec MakeFacts MakeProps MakeMore Truncate SameSpec SameCode.
Open Scope N_scope.

Section Width.
Context {ptr : ptr_width}.

(** rule texts that are read as the same condition, or as two complete conditions with the same parts *)
Definition same_text (s s' : bytes) : Prop :=
  (forall c, reading s c <-> reading s' c) \/
  exists c c', reading s c /\ reading s' c' /\ no_gaps c /\ no_gaps c' /\ lacks_ranges c = false /\ lacks_ranges c' = false /\ parts c = parts c'.
Definition same_rule (a b : bytes * bytes) : Prop := fst a = fst b /\ same_text (snd a) (snd b).
Definition same_locale (a b : bytes * bmap bytes) : Prop :=
  fst a = fst b /\ (fst a = bs "root" \/ Forall2 same_rule (snd a) (snd b)).
Definition same_data (a b : option rule_map) : Prop :=
  match a, b with Some x, Some y => Forall2 same_locale x y | None, None => True | _, _ => False end.
Definition same_resource (a b : supplemental) : Prop :=
  version_of a = version_of b /\ forall t, same_data (data_of t a) (data_of t b).

Lemma same_lang a b : Forall2 same_rule a b -> gen_lang_rules a = gen_lang_rules b.
Proof.
  induction 1 as [|[n t] [n' t'] a b [N T] F IH]; [reflexivity|]. cbn [fst snd] in *. subst n'.
  destruct T as [T|(c & c' & R & R' & G & G' & L & L' & E)].
  - cbn [gen_lang_rules]. rewrite IH. pose proof (alike_lang [(n, t)] [(n, t')]) as K. cbn [gen_lang_rules] in K.
    specialize (K ltac:(constructor; [split; [reflexivity|exact T]|constructor])).
    destruct (cat_name_of n) as [nn| |]; cbn [rbind] in *; try reflexivity.
    assert (Q : match parse_plural_condition t with Ok c => Ok c | Err _ => Panic "Parsing of a condition succeeded" | Panic w => Panic w end =
              match parse_plural_condition t' with Ok c => Ok c | Err _ => Panic "Parsing of a condition succeeded" | Panic w => Panic w end :> res condition).
    { clear K. destruct (parse_plural_condition t) as [c|m|w] eqn:P.
      - apply reading_parses, T, reading_parses in P. now rewrite P.
      - destruct (parse_plural_condition t') as [c|m'|w] eqn:P'; [|reflexivity|now apply ParserProps.no_panic in P'].
        apply reading_parses, T, reading_parses in P'. congruence.
      - now apply ParserProps.no_panic in P. }
    now rewrite Q.
  - apply reading_parses in R, R'. cbn [gen_lang_rules]. rewrite IH, R, R'.
    assert (Q : gen_pr c = gen_pr c') by now apply C110_lemma. cbn [rbind].
    destruct (cat_name_of n) as [nn| |]; cbn [rbind]; try reflexivity. destruct (category_of_name nn); now rewrite ?Q.
Qed.
Lemma same_keys a b : Forall2 same_locale a b ->
  match parse_keys a, parse_keys b with
  | Ok l, Ok m => Forall2 (fun x y => fst x = fst y /\ Forall2 same_rule (snd x) (snd y)) l m
  | Panic v, Panic w => v = w
  | _, _ => False
  end.
Proof.
  induction 1 as [|[k v] [k' v'] a b [K V] F IH]; cbn [parse_keys]; [constructor|]. cbn [fst snd] in *. subst k'.
  destruct (bytes_eqb k (bs "root")) eqn:R; [exact IH|]. destruct V as [->|V]; [discriminate R|].
  destruct (langid_from_str k); cbn [unwrap rbind]; [|reflexivity].
  destruct (parse_keys a), (parse_keys b); try easy. cbn [rbind]. constructor; auto.
Qed.
Lemma same_type srt a b : uniform srt -> Forall2 same_locale a b -> gen_type_rs srt a = gen_type_rs srt b.
Proof.
  intros U F. apply same_keys in F. unfold gen_type_rs. destruct (parse_keys a), (parse_keys b); try easy; [|now subst].
  cbn [rbind]. apply (@zip_sorted (bmap bytes) srt (Forall2 same_rule)) in F; [|auto]. revert F.
  generalize (srt (bmap bytes) a0) (srt (bmap bytes) a1). clear. intros L M F. induction F as [|[k r] [k' r'] L M [K R] F IH]; [reflexivity|]. cbn [fst snd] in *. subst k'.
  cbn [map_res]. rewrite IH, (same_lang _ _ R). reflexivity.
Qed.
Lemma same_part srt cur a b : uniform srt -> same_data a b -> gen_part srt cur a = gen_part srt cur b.
Proof.
  intros U S. destruct a as [a|], b as [b|]; try easy. cbn [same_data] in S. unfold gen_part. now rewrite (same_type srt a b U S).
Qed.
Lemma same_step srt st a b : uniform srt -> same_resource a b -> gen_step srt st a = gen_step srt st b.
Proof.
  intros U (V & D). pose proof (D CARDINAL) as C. pose proof (D ORDINAL) as O. cbn [data_of] in C, O.
  unfold gen_step. change (ve_cldr_version (su_version a)) with (version_of a). rewrite V.
  fold (version_of b). destruct (match g_version st with Some _ => _ | None => _ end); cbn [rbind]; try reflexivity.
  rewrite (same_part srt _ _ _ U C). destruct (gen_part srt (g_cardinal st) (su_cardinal b)); cbn [rbind]; try reflexivity.
  now rewrite (same_part srt _ _ _ U O).
Qed.
Lemma C110_files_lemma srt jsons jsons' rs rs' : uniform srt -> inputs_are jsons rs -> inputs_are jsons' rs' ->
  Forall2 same_resource rs rs' -> generate_rs srt jsons = generate_rs srt jsons'.
Proof.
  intros U I I' F. unfold generate_rs, generate_tokens. f_equal.
  assert (K : forall st, gen_loop srt st jsons = gen_loop srt st jsons'); [|now rewrite K].
  revert jsons jsons' I I'. induction F as [|a b rs rs' S F IH]; intros jsons jsons' I I' st; inversion I as [|j ? js ? J1 J2]; subst; inversion I' as [|j' ? js' ? J1' J2']; subst; [reflexivity|].
  apply resource_text_iff in J1, J1'. cbn [gen_loop]. rewrite J1, J1'. cbn [unwrap rbind]. rewrite (same_step srt st a b U S). destruct (gen_step srt st b); cbn [rbind]; auto.
Qed.
End Width.
