(** * The locales of the shipped tables, read from the JSON text by the grammars *)
From Coq Require Import Sorted.
From Verif Require Import Base Ast LangId LangIdFacts LangOrder GenRs PluralRules Tables Json JsonSpec JsonDe Cldr FileSpec LangSpec LangGram ApiProps.
Open Scope N_scope.

Lemma C25_texts_lemma t r : resource_text (cldr_json t) r ->
  exists d, data_of t r = Some d /\
  forall id, In id (get_locales t) <-> exists key rules, In (key, rules) d /\ key <> bs "root" /\ names_id key id.
Proof.
  intros R. apply resource_text_iff in R. destruct (C25_lemma t) as (_ & m & M & H).
  unfold rule_map_of in M. rewrite R in M. exists m. split; [destruct t; exact M|].
  intros id. rewrite (H id). split; intros (key & rules & I & K & L); exists key, rules; repeat split; auto; now apply langid_iff.
Qed.

(** ** Ordinal and cardinal locales *)
Definition in_list (l : list langid) (id : langid) : bool :=
  existsb (fun i => match langid_compare id i with Eq => true | _ => false end) l.
Lemma ordinal_in_cardinal : forallb (in_list (get_locales CARDINAL)) (get_locales ORDINAL) = true.
Proof. vm_compute. reflexivity. Qed.
Lemma C101_lemma how id pr : create how id ORDINAL = Ok pr -> exists pr', create how id CARDINAL = Ok pr'.
Proof.
  intros H. assert (I : In id (get_locales ORDINAL)) by (apply (proj1 (C21_lemma how id ORDINAL)); eauto).
  pose proof (proj1 (forallb_forall _ _) ordinal_in_cardinal id I) as K. apply existsb_exists in K as (i & J & E).
  destruct (langid_compare id i) eqn:C; try discriminate. apply langid_compare_eq in C. subst i. now apply (proj1 (C21_lemma how id CARDINAL)).
Qed.
Lemma C101_not_lemma : exists how id pr, create how id CARDINAL = Ok pr /\ create how id ORDINAL = Err "unknown locale".
Proof.
  exists Halving, (mkLang (Some (bs "ak")) None None None). eexists. split; vm_compute; reflexivity.
Qed.
