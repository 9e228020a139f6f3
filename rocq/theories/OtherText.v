(** * The text of "other", exactly (C57) *)
From Verif Require Import Base Ast CldrParser LangId GenRs Json MakeRules FileSpec DigitFacts MakeFacts MakeProps MakeMore.
Open Scope N_scope.

Section Width.
Context {ptr : ptr_width}.

(** inputs that differ in the texts of rules named "other" (or by no category
    name) only, whatever these texts are *)
Definition free_rule (a b : bytes * bytes) : Prop := fst a = fst b /\ (snd a = snd b \/ is_other_name (fst a)).
Definition free_locale (a b : bytes * bmap bytes) : Prop := fst a = fst b /\ Forall2 free_rule (snd a) (snd b).
Definition free_data (a b : option rule_map) : Prop :=
  match a, b with Some x, Some y => Forall2 free_locale x y | None, None => True | _, _ => False end.
Definition free_other (a b : supplemental) : Prop :=
  version_of a = version_of b /\ forall t, free_data (data_of t a) (data_of t b).
(** every such text is read by the rule parser, the locale "root" aside *)
Definition others_parse (rs : list supplemental) : Prop :=
  forall r t d key rules name text, In r rs -> data_of t r = Some d -> In (key, rules) d -> key <> bs "root" ->
    In (name, text) rules -> is_other_name name -> exists c, parse_plural_condition text = Ok c.

Lemma acceptable_others rs : acceptable rs -> others_parse rs.
Proof.
  intros A r t d key rules name text R D K N I _. destruct (ac_data _ A r t d R D key rules K N) as [_ F].
  rewrite Forall_forall in F. destruct (F _ I) as (part & co & c & _ & _ & P & _). cbn [snd] in P. now exists co.
Qed.
Definition texts_parse (l : list (bytes * bytes)) : Prop :=
  forall name text, In (name, text) l -> is_other_name name -> exists c, parse_plural_condition text = Ok c.
Lemma free_same_rules a b : Forall2 free_rule a b -> texts_parse a -> texts_parse b -> Forall2 same_rule a b.
Proof.
  induction 1 as [|[n t] [n' t'] a b [N T] F IH]; intros A B; constructor.
  - cbn [fst snd] in *. subst n'. split; [reflexivity|]. destruct T as [T|O]; [now left|right]. split; [exact O|]. cbn [snd].
    destruct (A n t (or_introl eq_refl) O) as (ca & CA), (B n t' (or_introl eq_refl) O) as (cb & CB). now exists ca, cb.
  - apply IH; [intros m u I; exact (A m u (or_intror I))|intros m u I; exact (B m u (or_intror I))].
Qed.
Definition locales_parse (l : rule_map) : Prop := forall key rules, In (key, rules) l -> key <> bs "root" -> texts_parse rules.
Lemma free_same_locales a b : Forall2 free_locale a b -> locales_parse a -> locales_parse b -> Forall2 same_locale a b.
Proof.
  induction 1 as [|[k v] [k' v'] a b [K V] F IH]; intros A B; constructor.
  - cbn [fst snd] in *. subst k'. split; [reflexivity|]. cbn [fst snd].
    destruct (bytes_eqb k (bs "root")) eqn:R; [left; now apply bytes_eqb_eq|right].
    assert (N : k <> bs "root") by (intros ->; discriminate R).
    apply free_same_rules; [exact V|exact (A k v (or_introl eq_refl) N)|exact (B k v' (or_introl eq_refl) N)].
  - apply IH; [intros m u I; exact (A m u (or_intror I))|intros m u I; exact (B m u (or_intror I))].
Qed.
Lemma free_same_data a b : free_data a b -> (forall d, a = Some d -> locales_parse d) -> (forall d, b = Some d -> locales_parse d) -> same_data a b.
Proof.
  intros F A B. destruct a as [x|], b as [y|]; try easy. apply free_same_locales; [exact F|now apply A|now apply B].
Qed.
Lemma free_same a b : Forall2 free_other a b -> others_parse a -> others_parse b -> Forall2 same_but_other a b.
Proof.
  induction 1 as [|x y a b [V D] F IH]; intros A B; constructor.
  - assert (X : forall t d, data_of t x = Some d -> locales_parse d)
      by (intros t d E key rules K N name text I; exact (A x t d key rules name text (or_introl eq_refl) E K N I)).
    assert (Y : forall t d, data_of t y = Some d -> locales_parse d)
      by (intros t d E key rules K N name text I; exact (B y t d key rules name text (or_introl eq_refl) E K N I)).
    split; [exact V|]. split.
    + exact (free_same_data _ _ (D CARDINAL) (X CARDINAL) (Y CARDINAL)).
    + exact (free_same_data _ _ (D ORDINAL) (X ORDINAL) (Y ORDINAL)).
  - apply IH; [intros r t d k l n u I; exact (A r t d k l n u (or_intror I))|intros r t d k l n u I; exact (B r t d k l n u (or_intror I))].
Qed.

Lemma C57_exact_lemma srt jsons jsons' rs rs' out : sorts srt -> uniform srt -> inputs_are jsons rs -> inputs_are jsons' rs' ->
  Forall2 free_other rs rs' -> generate_rs srt jsons = Ok out ->
  (generate_rs srt jsons' = Ok out <-> others_parse rs') /\
  (others_parse rs' \/ exists w, generate_rs srt jsons' = Panic w).
Proof.
  intros S U I I' F G.
  assert (P : forall js l o, inputs_are js l -> generate_rs srt js = Ok o -> others_parse l).
  { intros js l o J K. destruct (proj1 (C64_lemma srt js S) (ex_intro _ o K)) as (l' & J' & A).
    rewrite (inputs_unique _ _ _ J J'). now apply acceptable_others. }
  split; [split|].
  - intros K. exact (P _ _ _ I' K).
  - intros O. rewrite <- G. symmetry. apply (C57_text srt jsons jsons' rs rs' U I I'). apply free_same; [exact F|exact (P _ _ _ I G)|exact O].
  - destruct (generate_rs srt jsons') as [o|e|w] eqn:K.
    + left. exact (P _ _ _ I' K).
    + exfalso. exact (generate_no_err srt jsons' e K).
    + right. now exists w.
Qed.
End Width.
