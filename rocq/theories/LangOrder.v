(** * The order of language identifiers, independently of the comparison of LangId.v

    Dictionary order of the four parts (language, script, region, variants); an
    absent part comes before a present one; texts compare byte by byte, a proper
    beginning first. *)
From Verif Require Import Base LangId LangIdFacts.
Open Scope N_scope.

Inductive sooner {A} (lt : A -> A -> Prop) : list A -> list A -> Prop :=
| so_end y m : sooner lt [] (y :: m)
| so_less x y l m : lt x y -> sooner lt (x :: l) (y :: m)
| so_same x l m : sooner lt l m -> sooner lt (x :: l) (x :: m).
Inductive absent_first {A} (lt : A -> A -> Prop) : option A -> option A -> Prop :=
| af_absent y : absent_first lt None (Some y)
| af_less x y : lt x y -> absent_first lt (Some x) (Some y).
Definition text_less : bytes -> bytes -> Prop := sooner N.lt.
Inductive id_less : langid -> langid -> Prop :=
| il_language l1 l2 s1 s2 r1 r2 v1 v2 :
    absent_first text_less l1 l2 -> id_less (mkLang l1 s1 r1 v1) (mkLang l2 s2 r2 v2)
| il_script l s1 s2 r1 r2 v1 v2 :
    absent_first text_less s1 s2 -> id_less (mkLang l s1 r1 v1) (mkLang l s2 r2 v2)
| il_region l s r1 r2 v1 v2 :
    absent_first text_less r1 r2 -> id_less (mkLang l s r1 v1) (mkLang l s r2 v2)
| il_variants l s r v1 v2 :
    absent_first (sooner text_less) v1 v2 -> id_less (mkLang l s r v1) (mkLang l s r v2).

(** ** The comparison of the model decides it *)
Lemma list_less_iff {A} (cmp : A -> A -> comparison) (lt : A -> A -> Prop) :
  (forall x y, cmp x y = Lt <-> lt x y) -> (forall x y, cmp x y = Eq <-> x = y) ->
  forall a b, list_compare cmp a b = Lt <-> sooner lt a b.
Proof.
  intros HL HE. induction a as [|x a IH]; intros [|y b]; cbn [list_compare].
  - split; intro H; [discriminate|inversion H].
  - split; intro H; [constructor|reflexivity].
  - split; intro H; [discriminate|inversion H].
  - destruct (cmp x y) eqn:E.
    + apply HE in E. subst. rewrite IH. split; intro H; [now apply so_same|]. inversion H; subst; auto.
      apply HL in H1. rewrite (proj2 (HE y y) eq_refl) in H1. discriminate.
    + apply HL in E. split; intro H; [now apply so_less|reflexivity].
    + split; intro H; [discriminate|]. exfalso. inversion H; subst.
      * apply HL in H1. congruence.
      * rewrite (proj2 (HE y y) eq_refl) in E. discriminate.
Qed.
Lemma text_less_iff a b : bytes_compare a b = Lt <-> text_less a b.
Proof.
  unfold text_less. revert b. induction a as [|x a IH]; intros [|y b]; cbn [bytes_compare].
  - split; intro H; [discriminate|inversion H].
  - split; intro H; [constructor|reflexivity].
  - split; intro H; [discriminate|inversion H].
  - destruct (N.compare_spec x y) as [E|E|E].
    + subst. rewrite IH. split; intro H; [now apply so_same|]. inversion H; subst; auto. lia.
    + split; intro H; [now apply so_less|reflexivity].
    + split; intro H; [discriminate|]. inversion H; subst; lia.
Qed.
Lemma option_less_iff {A} (cmp : A -> A -> comparison) (lt : A -> A -> Prop) :
  (forall x y, cmp x y = Lt <-> lt x y) -> forall a b, option_compare cmp a b = Lt <-> absent_first lt a b.
Proof.
  intros HL [x|] [y|]; cbn [option_compare].
  - rewrite HL. split; intro H; [now constructor|now inversion H].
  - split; intro H; [discriminate|inversion H].
  - split; intro H; [constructor|reflexivity].
  - split; intro H; [discriminate|inversion H].
Qed.
Lemma id_less_iff a b : langid_compare a b = Lt <-> id_less a b.
Proof.
  destruct a as [l1 s1 r1 v1], b as [l2 s2 r2 v2]. unfold langid_compare. cbn [li_language li_script li_region li_variants].
  pose proof (option_less_iff _ _ text_less_iff) as OL.
  pose proof (option_less_iff _ _ (list_less_iff _ _ text_less_iff (tc_eq _ total_bytes))) as VL.
  pose proof (tc_eq _ (total_option _ total_bytes)) as OE.
  split.
  - destruct (option_compare bytes_compare l1 l2) eqn:E1; cbn [then_compare]; [|intros _; now apply il_language, OL|discriminate].
    apply OE in E1. subst l2.
    destruct (option_compare bytes_compare s1 s2) eqn:E2; cbn [then_compare]; [|intros _; now apply il_script, OL|discriminate].
    apply OE in E2. subst s2.
    destruct (option_compare bytes_compare r1 r2) eqn:E3; cbn [then_compare]; [|intros _; now apply il_region, OL|discriminate].
    apply OE in E3. subst r2. intro V. now apply il_variants, VL.
  - intro H. inversion H; subst; rewrite ?(proj2 (OE _ _) eq_refl); cbn [then_compare];
      match goal with K : absent_first _ _ _ |- _ => first [apply OL in K; rewrite K; reflexivity | apply VL in K; exact K] end.
Qed.
Lemma not_after_iff a b : langid_compare a b <> Gt <-> ~ id_less b a.
Proof. rewrite <- id_less_iff, <- langid_compare_gt. tauto. Qed.
