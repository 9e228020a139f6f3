(** * Property C126: select tells apart the locales that CLDR tells apart *)
From Verif Require Import Base Operands Ast LangId GenRs RustExpr PluralRules Tables Cldr Spec GenMeaning ApiProps Conformance BehaviourSpec
  IntegerClasses CldrClasses.
Open Scope N_scope.

(** C126.  Two locales have rules of the same meaning exactly when [select] answers alike for every input *)
Theorem C126_all_numbers how how' id id' t pr pr' r r' : create how id t = Ok pr -> create how' id' t = Ok pr' ->
  In (id, r) (cldr t) -> In (id', r') (cldr t) ->
  ((forall d c, proper d -> (cldr_select r d c <-> cldr_select r' d c)) <-> forall w x, select w pr x = select w pr' x).
Proof. exact (C126_select_lemma how how' id id' t pr pr' r r'). Qed.
Print Assumptions C126_all_numbers.
(** the classes are those of C85 *)
Theorem C126_classes t id r id' r' : In (id, r) (cldr t) -> In (id', r') (cldr t) ->
  ((forall d c, proper d -> (cldr_select r d c <-> cldr_select r' d c)) <-> same_class t id id' = true).
Proof. exact (C126_meaning_lemma t id r id' r'). Qed.
Print Assumptions C126_classes.
(** For integers CLDR takes the lines of C125 together, and the cardinals of Belarusian with those of Russian and Ukrainian *)
Theorem C126_integers t id r t' id' r' : In (id, r) (cldr t) -> In (id', r') (cldr t') ->
  ((forall x c, cldr_select r (mkDecimal x []) c <-> cldr_select r' (mkDecimal x []) c) <->
   alike t id t' id' || east_slavic t id && east_slavic t' id' = true).
Proof. exact (C126_integers_lemma t id r t' id' r'). Qed.
Print Assumptions C126_integers.
(** so what [select] gives the same for all integers has one meaning for integers *)
Theorem C126_select_integers how how' id t pr r id' t' pr' r' w w' : create how id t = Ok pr -> create how' id' t' = Ok pr' ->
  In (id, r) (cldr t) -> In (id', r') (cldr t') ->
  (forall x, x < 2 ^ 64 -> select w pr (InUnsigned x) = select w' pr' (InUnsigned x)) ->
  forall x c, cldr_select r (mkDecimal x []) c <-> cldr_select r' (mkDecimal x []) c.
Proof. exact (C126_select_integers_lemma how how' id t pr r id' t' pr' r' w w'). Qed.
Print Assumptions C126_select_integers.
(** The converse is false: 22 has one category in Belarusian and Russian, but [select] separates the two *)
Theorem C126_not_conversely : exists be ru r r' c c', create Halving (lang "be") CARDINAL = Ok be /\ create Halving (lang "ru") CARDINAL = Ok ru /\
  In (lang "be", r) (cldr CARDINAL) /\ In (lang "ru", r') (cldr CARDINAL) /\
  (forall x c, cldr_select r (mkDecimal x []) c <-> cldr_select r' (mkDecimal x []) c) /\
  select W64 be (InUnsigned 22) = Ok c /\ select W64 ru (InUnsigned 22) = Ok c' /\ c <> c'.
Proof.
  destruct (create Halving (lang "be") CARDINAL) as [be| |] eqn:B; [|vm_compute in B; discriminate|vm_compute in B; discriminate].
  destruct (create Halving (lang "ru") CARDINAL) as [ru| |] eqn:R; [|vm_compute in R; discriminate|vm_compute in R; discriminate].
  destruct (find_rules CARDINAL (lang "be")) as [r|] eqn:FB; [|vm_compute in FB; discriminate].
  destruct (find_rules CARDINAL (lang "ru")) as [r'|] eqn:FR; [|vm_compute in FR; discriminate].
  apply find_rules_in in FB, FR. exists be, ru, r, r'.
  assert (SB : select W64 be (InUnsigned 22) = Ok OTHER) by (vm_compute in B; injection B as <-; vm_compute; reflexivity).
  assert (SR : select W64 ru (InUnsigned 22) = Ok FEW) by (vm_compute in R; injection R as <-; vm_compute; reflexivity).
  exists OTHER, FEW. split; [reflexivity|]. split; [reflexivity|]. split; [exact FB|]. split; [exact FR|].
  split; [|split; [exact SB|split; [exact SR|discriminate]]].
  apply (C126_integers_lemma CARDINAL (lang "be") r CARDINAL (lang "ru") r' FB FR). vm_compute. reflexivity.
Qed.
Print Assumptions C126_not_conversely.
(** French "i = 0,1" and Portuguese "i = 0..1" mean the same, French and Portuguese of Portugal do not; Filipino ordinals
    and English cardinals mean the same for integers *)
Example C126_case : exists fr pt ptpt r1 r2 r3, create Halving (lang "fr") CARDINAL = Ok fr /\ create Halving (lang "pt") CARDINAL = Ok pt /\
  create Halving (mkLang (Some (bs "pt")) None (Some (bs "PT")) None) CARDINAL = Ok ptpt /\
  find_rules CARDINAL (lang "fr") = Some r1 /\ find_rules CARDINAL (lang "pt") = Some r2 /\
  find_rules CARDINAL (mkLang (Some (bs "pt")) None (Some (bs "PT")) None) = Some r3 /\
  same_class CARDINAL (lang "fr") (lang "pt") = true /\
  same_class CARDINAL (lang "fr") (mkLang (Some (bs "pt")) None (Some (bs "PT")) None) = false /\
  select W64 fr (InUnsigned 0) = Ok ONE /\ select W64 ptpt (InUnsigned 0) = Ok OTHER /\
  alike ORDINAL (lang "fil") CARDINAL (lang "en") = true.
Proof. do 6 eexists. do 6 (split; [vm_compute; reflexivity|]). repeat split; vm_compute; reflexivity. Qed.
