(** * Properties C03 (select) and C21-C28: the API of intl_pluralrules

    [how] is either of std's two binary searches, [w] the pointer width. *)
From Coq Require Import Floats.SpecFloat Sorted.
From Verif Require Import Base Utf8 F64 Operands Ast LangId GenRs RustExpr PluralRules Tables Json Cldr Spec SpecR
  LangIdFacts LangOrder ApiProps InputSpec.
Open Scope N_scope.

Definition lang (s : string) : langid := mkLang (Some (bs s)) None None None.

(** C03, the part about [select]; also C14 and C19 *)
Theorem C03_select_minus w pr s : utf8_text s -> (forall r, s <> 45 :: r) ->
  select w pr (InStr (45 :: s)) = select w pr (InStr s) /\
  select w pr (InString (45 :: s)) = select w pr (InString s).
Proof. rewrite <- utf8_iff. exact (C03_select w pr s). Qed.
Print Assumptions C03_select_minus.
Theorem C19_select_opposite w pr :
  (forall z, select w pr (InSigned (- z)) = select w pr (InSigned z)) /\
  (forall x, valid64 x -> select w pr (InF64 (SFopp x)) = select w pr (InF64 x)) /\
  (forall x, valid32 x -> select w pr (InF32 (SFopp x)) = select w pr (InF32 x)).
Proof. exact (select_opposite w pr). Qed.
Print Assumptions C19_select_opposite.
Example C19_select_case : exists pr, create LeftRight (lang "lv") CARDINAL = Ok pr /\
  select W64 pr (InSigned (-21)) = Ok ONE /\
  select W64 pr (InF64 (S754_finite true 7205759403792794 (-56))) = Ok ONE /\
  select W64 pr (InF32 (S754_finite true 13421773 (-27))) = Ok ONE /\
  valid64 (S754_finite true 7205759403792794 (-56)) /\ valid32 (S754_finite true 13421773 (-27)).
Proof.
  eexists. split; [vm_compute; reflexivity|]. split; [vm_compute; reflexivity|]. split; [vm_compute; reflexivity|].
  split; [vm_compute; reflexivity|]. split; vm_compute; reflexivity.
Qed.
Example C03_select_case : exists pr, create LeftRight (lang "naq") CARDINAL = Ok pr /\
  select W64 pr (InStr (bs "-2")) = Ok TWO /\ select W64 pr (InStr (bs "2")) = Ok TWO.
Proof. eexists. split; [vm_compute; reflexivity|]. split; vm_compute; reflexivity. Qed.

(** C21 *)
Theorem C21_create_iff how id t :
  ((exists pr, create how id t = Ok pr) <-> In id (get_locales t)) /\
  (~ In id (get_locales t) -> create how id t = Err "unknown locale").
Proof. exact (C21_lemma how id t). Qed.
Print Assumptions C21_create_iff.
Example C21_case : create Halving (lang "xx") CARDINAL = Err "unknown locale" /\
  create LeftRight (lang "tlh") ORDINAL = Err "unknown locale" /\
  (exists pr, create Halving (lang "zu") CARDINAL = Ok pr) /\
  (exists pr, create LeftRight (lang "af") ORDINAL = Ok pr).
Proof.
  split; [vm_compute; reflexivity|]. split; [vm_compute; reflexivity|].
  split; eexists; vm_compute; reflexivity.
Qed.

(** C22; the choice of std's search algorithm makes no difference *)
Theorem C22_create_rule how id t pr :
  create how id t = Ok pr ->
  In (id, pr_function pr) (prs t) /\ forall b, In (id, b) (prs t) -> b = pr_function pr.
Proof. exact (C22_lemma how id t pr). Qed.
Print Assumptions C22_create_rule.
Theorem C22_search_irrelevant how how' id t : create how id t = create how' id t.
Proof. exact (create_same how how' id t). Qed.
Print Assumptions C22_search_irrelevant.
Example C22_search_case : (exists pr, create LeftRight pt_PT CARDINAL = Ok pr /\ create Halving pt_PT CARDINAL = Ok pr) /\
  create LeftRight pt_PT ORDINAL = Err "unknown locale".
Proof. split; [eexists; split; vm_compute; reflexivity|]. vm_compute. reflexivity. Qed.
Example C22_case : exists pr, create Halving (lang "pt") CARDINAL = Ok pr /\
  pr_function pr = mkBody [(BContains 0 1 (NField OI), ONE)] OTHER.
Proof. eexists. split; [vm_compute; reflexivity|vm_compute; reflexivity]. Qed.

(** C23 *)
Theorem C23_get_locale how id t pr : create how id t = Ok pr -> get_locale pr = id.
Proof. exact (C23_lemma how id t pr). Qed.
Print Assumptions C23_get_locale.
Example C23_case : exists pr, create Halving pt_PT CARDINAL = Ok pr /\ get_locale pr = pt_PT.
Proof. eexists. split; [vm_compute; reflexivity|vm_compute; reflexivity]. Qed.

(** C24 *)
Theorem C24_no_fallback how id t :
  li_script id <> None \/ li_region id <> None \/ li_variants id <> None ->
  (exists pr, create how id t = Ok pr) <->
  (t = CARDINAL /\ id = mkLang (Some (bs "pt")) None (Some (bs "PT")) None).
Proof. exact (C24_lemma how id t). Qed.
Print Assumptions C24_no_fallback.
Example C24_case :
  create Halving (mkLang (Some (bs "en")) None (Some (bs "US")) None) CARDINAL = Err "unknown locale" /\
  (exists pr, create Halving (mkLang (Some (bs "pt")) None (Some (bs "PT")) None) CARDINAL = Ok pr).
Proof. split; [vm_compute; reflexivity|eexists; vm_compute; reflexivity]. Qed.

(** C25 *)
Theorem C25_locales_sorted_and_complete t :
  StronglySorted id_less (get_locales t) /\
  exists m, rule_map_of t (cldr_json t) = Some m /\
  forall l, In l (get_locales t) <->
    exists key rules, In (key, rules) m /\ key <> bs "root" /\ langid_from_str key = Some l.
Proof. exact (C25_lemma t). Qed.
Print Assumptions C25_locales_sorted_and_complete.
Example C25_case : List.length (get_locales CARDINAL) = 212%nat /\ List.length (get_locales ORDINAL) = 97%nat /\
  langid_from_str (bs "pt-PT") = Some pt_PT.
Proof. split; [reflexivity|]. split; [reflexivity|]. vm_compute. reflexivity. Qed.

(** C26 *)
Theorem C26_select_fails_iff how id t pr w x :
  create how id t = Ok pr ->
  (select w pr x = Err "Argument can not be parsed to operands." <-> exists e, converted w x = Err e) /\
  (forall po, converted w x = Ok po ->
     exists c, select w pr x = Ok c /\
     forall w' x', converted w' x' = Ok po -> select w' pr x' = Ok c).
Proof. exact (C26_lemma how id t pr w x). Qed.
Print Assumptions C26_select_fails_iff.
Theorem C26_select_no_panic how id t pr w x why :
  create how id t = Ok pr -> valid_input x -> select w pr x <> Panic why.
Proof. exact (C26_no_panic how id t pr w x why). Qed.
Print Assumptions C26_select_no_panic.
Example C26_no_panic_case : exists pr, create Halving (lang "pl") CARDINAL = Ok pr /\
  valid_input (InStr [45; 226; 130; 172]) /\
  select W64 pr (InStr [45; 226; 130; 172]) = Err "Argument can not be parsed to operands.".
Proof.
  eexists. split; [vm_compute; reflexivity|]. split; [apply utf8_iff; vm_compute; reflexivity|]. vm_compute. reflexivity.
Qed.
Example C26_case : exists pr, create Halving (lang "en") CARDINAL = Ok pr /\
  select W64 pr (InStr (bs "foo")) = Err "Argument can not be parsed to operands." /\
  select W64 pr (InSigned (- 2 ^ 63)) = Err "Argument can not be parsed to operands." /\
  select W64 pr (InStr (bs "1")) = Ok ONE /\ select W64 pr (InStr (bs "1.0")) = Ok OTHER /\
  valid_input (InStr (bs "1.0")).
Proof.
  eexists. split; [vm_compute; reflexivity|]. split; [vm_compute; reflexivity|].
  split; [vm_compute; reflexivity|]. split; [vm_compute; reflexivity|].
  split; [vm_compute; reflexivity|]. apply utf8_iff. vm_compute. reflexivity.
Qed.

(** C27: [po] ranges over all records, consistent or not *)
Theorem C27_rule_total t id b po : In (id, b) (prs t) -> exists c, eval_body b po = Ok c.
Proof. exact (C27_lemma t id b po). Qed.
Print Assumptions C27_rule_total.
Example C27_case : exists pr, create Halving (lang "kw") CARDINAL = Ok pr /\
  eval_body (pr_function pr) (mkOps S754_nan (2 ^ 64 - 1) 7 9 (2 ^ 64 - 1) 5) = Ok OTHER.
Proof. eexists. split; [vm_compute; reflexivity|vm_compute; reflexivity]. Qed.

(** C28 *)
Theorem C28_category_defined how id t pr w x c :
  create how id t = Ok pr -> select w pr x = Ok c ->
  exists rules, In (id, rules) (cldr t) /\ (c = OTHER \/ exists cond, In (c, cond) rules).
Proof. exact (C28_lemma how id t pr w x c). Qed.
Print Assumptions C28_category_defined.
Theorem C28_data_unique t id rules rules' :
  In (id, rules) (cldr t) -> In (id, rules') (cldr t) -> rules = rules'.
Proof. exact (cldr_unique t id rules rules'). Qed.
Print Assumptions C28_data_unique.
Example C28_data_case : exists rules, In (lang "cy", rules) (cldr ORDINAL) /\ map fst rules = [FEW; MANY; ONE; OTHER; TWO; ZERO].
Proof. eexists. split; [apply (nth_error_In _ 13); vm_compute; reflexivity|]. reflexivity. Qed.
Theorem C28_data_of_text t : cldr_of_text t (cldr_json t) = Some (cldr t).
Proof. exact (cldr_correct t). Qed.
Print Assumptions C28_data_of_text.
Example C28_case : exists pr, create Halving (lang "cy") ORDINAL = Ok pr /\
  select W64 pr (InUnsigned 7) = Ok ZERO.
Proof. eexists. split; [vm_compute; reflexivity|vm_compute; reflexivity]. Qed.
