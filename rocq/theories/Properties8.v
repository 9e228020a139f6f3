(** * Properties C71, C72 and C25 (the texts): the texts the generator reads

    [resource_text] (JsonSpec.v) and [names_id] (LangSpec.v) are grammars that
    do not mention the parsers of the model. *)
From Verif Require Import Base Ast LangId GenRs PluralRules Tables Json JsonSpec JsonDe Cldr FileSpec LangSpec LangGram LocaleTexts.
Open Scope N_scope.

(** C71 *)
Theorem C71_resources text r : parse_plurals_resource_from_string text = Some r <-> resource_text text r.
Proof. exact (resource_text_iff text r). Qed.
Print Assumptions C71_resources.
(** an escaped key, an unknown field with a lone surrogate and a number, a
    null table and a repeated locale *)
Example C71_case :
  resource_text (bs " {""x"":[-1.5e+3,""\ud800"",{}],""supplement\u0061l"":{""plurals-type-ordinal"":null,
    ""version"":[null,""12"",""37""],""plurals-type-cardinal"":{""sv"":{""a"":""b""},""da"":{},""sv"":{""c"":""\uD83d\ude00""}}}}
")
    (mkSupplemental (mkVersion None (bs "12") (bs "37")) (Some [(bs "da", []); (bs "sv", [(bs "c", [240; 159; 152; 128])])]) None) /\
  (forall r, ~ resource_text (bs "{""supplemental"":{""version"":{""_cldrVersion"":""37""}}}") r) /\
  (forall r, ~ resource_text (bs "[[[null,""12"",""037""],null,null]],") r) /\
  (forall r, ~ resource_text (bs "[[[null,""12"",""\ud800""],null,null]]") r).
Proof.
  split; [apply C71_resources; vm_compute; reflexivity|].
  repeat split; intros r H; apply C71_resources in H; vm_compute in H; discriminate H.
Qed.

(** C72 *)
Theorem C72_language_identifiers text id : langid_from_str text = Some id <-> names_id text id.
Proof. exact (langid_iff text id). Qed.
Print Assumptions C72_language_identifiers.
Example C72_case :
  names_id (bs "SR_lATN-rs-valencia-1994-VALENCIA")
    (mkLang (Some (bs "sr")) (Some (bs "Latn")) (Some (bs "RS")) (Some [bs "1994"; bs "valencia"])) /\
  names_id (bs "Und-419") (mkLang None None (Some (bs "419")) None) /\
  (forall id, ~ names_id (bs "root") id) /\ (forall id, ~ names_id (bs "") id) /\ (forall id, ~ names_id (bs "en-") id) /\
  (forall id, ~ names_id (bs "en-US-Latn") id).
Proof.
  split; [apply C72_language_identifiers; vm_compute; reflexivity|].
  split; [apply C72_language_identifiers; vm_compute; reflexivity|].
  repeat split; intros r H; apply C72_language_identifiers in H; vm_compute in H; discriminate H.
Qed.

(** C25, with the keys read from the JSON text by the grammars alone *)
Theorem C25_locales_of_the_text t r : resource_text (cldr_json t) r ->
  exists d, data_of t r = Some d /\
  forall id, In id (get_locales t) <-> exists key rules, In (key, rules) d /\ key <> bs "root" /\ names_id key id.
Proof. exact (C25_texts_lemma t r). Qed.
Print Assumptions C25_locales_of_the_text.
Example C25_text_case : (exists r, resource_text (cldr_json ORDINAL) r) /\
  In (mkLang (Some (bs "sv")) None None None) (get_locales ORDINAL) /\
  ~ In (mkLang (Some (bs "pt")) None (Some (bs "PT")) None) (get_locales ORDINAL).
Proof.
  split; [|split].
  - assert (H : exists r, parse_plurals_resource_from_string (cldr_json ORDINAL) = Some r) by (vm_compute; eexists; reflexivity).
    destruct H as [r H]. exists r. now apply C71_resources.
  - apply (nth_error_In _ 82). vm_compute. reflexivity.
  - intro H. assert (E : existsb (fun i => match langid_compare i (mkLang (Some (bs "pt")) None (Some (bs "PT")) None) with Eq => true | _ => false end) (get_locales ORDINAL) = false) by (vm_compute; reflexivity).
    assert (T : existsb (fun i => match langid_compare i (mkLang (Some (bs "pt")) None (Some (bs "PT")) None) with Eq => true | _ => false end) (get_locales ORDINAL) = true)
      by (apply existsb_exists; eexists; split; [exact H|reflexivity]).
    congruence.
Qed.
