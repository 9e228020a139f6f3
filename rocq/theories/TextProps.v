(** * Lemmas behind C81 and C82 *)
From Coq Require Import Lia Floats.SpecFloat.
From Verif Require Import Base F64 Operands Ast LangId GenRs RustExpr PluralRules Tables Json Cldr Spec DigitFacts OperandsFacts
  ApiProps LangSpec LangGram TextSpec.
Open Scope N_scope.

(** ** C81 *)
Lemma parse_number_frac_exp i f ex : digits i -> digits f -> i ++ f <> [] -> exponent ex ->
  exists r, parse_number (i ++ 46 :: f ++ ex) = Some r.
Proof.
  intros Di Df N X. unfold parse_number.
  rewrite span_app; [|now apply digits_forallb|intros c r E; inversion E; subst; reflexivity].
  cbn [N.eqb Pos.eqb].
  rewrite span_app; [|now apply digits_forallb|intros c r E; now apply (head_not_digit_exp ex X c r)].
  destruct (i ++ f) as [|c r]; [easy|].
  destruct X as [->|(c' & sg & d & -> & H & Sg & Dd & Nd)]; [eauto|].
  assert (C2 : (c' =? 101) || (c' =? 69) = true) by (destruct H as [->| ->]; reflexivity).
  rewrite C2. destruct (parse_scientific_ok sg d Sg Dd Nd) as [x ->]. eauto.
Qed.
Lemma float_text_iff t : (exists x, f64_from_str t = Some x) <-> float_text t.
Proof.
  split.
  - intros [x H]. exact (f64_from_str_some t x H).
  - intros (sg & u & -> & S & U).
    assert (G : forall r, no_sign u -> u <> [] -> parse_number u = Some r -> exists x, f64_from_str (sg ++ u) = Some x).
    { intros [m e] N E P. rewrite f64_from_str_sign by auto. rewrite P. eauto. }
    destruct U as [(i & ex & -> & D & N & X)|[(i & f & ex & -> & Di & Df & N & X)|W]].
    + destruct (parse_number_int i ex D N X) as (e & P & _). apply (G _) in P; [exact P|now apply no_sign_digits|destruct i; easy].
    + destruct (parse_number_frac_exp i f ex Di Df N X) as (r & P). apply (G _) in P; [exact P| |destruct i; easy].
      destruct i as [|c i]; [|apply no_sign_digits; easy]. intro r'. cbn. split; discriminate.
    + rewrite f64_from_str_sign; auto using special_no_sign.
      * rewrite parse_number_special by exact W. now apply parse_inf_nan_some.
      * destruct (special_head u W) as (c & r & -> & _). easy.
Qed.
Lemma from_abs_errors t :
  (from_abs t = Err "Incorrect number passed!" <-> ~ float_text t) /\
  (from_abs t = Err "Could not convert string to integer!" <-> float_text t /\ ~ accepted_abs t).
Proof.
  assert (A : (exists po, from_abs t = Ok po) <-> accepted_abs t).
  { split; [intros [po H]; exact (from_abs_ok t po H)|apply from_abs_accepts]. }
  assert (P : forall w, from_abs t <> Panic w) by (intro; apply from_abs_no_panic).
  rewrite <- A, <- float_text_iff. clear A. unfold from_abs in *. destruct (f64_from_str t) as [x|]; cbn [ok_or rbind] in *.
  - destruct (find_byte 46 t) as [k|].
    + unfold slice_to, slice_from in *.
      destruct (is_char_boundary t k); cbn [rbind] in *; [|now elim (P "byte index is not a char boundary"%string)].
      destruct (is_char_boundary t (S k)); cbn [rbind] in *; [|now elim (P "byte index is not a char boundary"%string)].
      destruct (u64_from_str (firstn k t)); cbn [ok_or rbind] in *.
      * destruct (u64_from_str (skipn (S k) t)); cbn [ok_or rbind] in *.
        -- split; split; try discriminate; [intro H; elim H; eauto|intros [_ H]; elim H; eauto].
        -- split; split; try discriminate; [intro H; elim H; eauto|intros _; split; [eauto|now intros [po H]]|reflexivity].
      * split; split; try discriminate; [intro H; elim H; eauto|intros _; split; [eauto|now intros [po H]]|reflexivity].
    + split; split; try discriminate; [intro H; elim H; eauto|intros [_ H]; elim H; eauto].
  - split; split; try discriminate; [now intros _ [x H]|reflexivity|now intros [[x H] _]].
Qed.
Lemma split_point a b p q : a ++ 46 :: b = p ++ 46 :: q -> ~ In 46 a -> ~ In 46 p -> a = p /\ b = q.
Proof.
  revert p. induction a as [|c a IH]; intros [|c' p] E NA NP; cbn in E; inversion E; subst; auto.
  - elim NP. now left.
  - elim NA. now left.
  - destruct (IH p) as [-> ->]; auto; intro K; [apply NA|apply NP]; now right.
Qed.
Lemma digits_no_point i : digits i -> ~ In 46 i.
Proof. intros D. apply digits_not_in; auto. unfold digit_char. lia. Qed.
Lemma no_point_before sg i : sign_opt sg -> digits i -> ~ In 46 (sg ++ i).
Proof. intros S D K. apply in_app_or in K as [K|K]; [now apply in_sign in K|now apply digits_no_point in K]. Qed.
Lemma bad_parts_iff t : bad_parts t <-> float_text t /\ ~ accepted_abs t.
Proof.
  split.
  - intros (sg & i & f & ex & -> & S & Di & Df & N & X & B). split.
    + exists sg, (i ++ 46 :: f ++ ex). split; [reflexivity|]. split; [exact S|]. right. left. exists i, f, ex. auto.
    + intro A. remember (sg ++ i ++ 46 :: f ++ ex) as t eqn:E.
      assert (P46 : In 46 t) by (subst t; rewrite app_assoc; apply in_elt).
      destruct A as [sg' i' ex' S' D' N' X'|sg' w S' W|plus i' f' Pl Di' Df' Ni Nf Bi Bf].
      * apply in_app_or in P46 as [K|K]; [now apply in_sign in K|].
        apply in_app_or in K as [K|K]; [now apply digits_no_point in K|now apply in_exponent in K].
      * apply in_app_or in P46 as [K|K]; [now apply in_sign in K|now apply special_no_point in K].
      * assert (S' : sign_opt plus) by (destruct Pl as [->| ->]; unfold sign_opt; auto).
        cbn [app] in E. rewrite (app_assoc plus), (app_assoc sg) in E.
        apply split_point in E as [E F]; [|now apply no_point_before|now apply no_point_before]. subst f'.
        assert (EX : ex = []).
        { destruct X as [->|(c & sg' & d & -> & H & _)]; [reflexivity|exfalso].
          unfold digits in Df'. rewrite Forall_forall in Df'. specialize (Df' c (in_elt _ _ _)). unfold digit_char in Df'. lia. }
        subst ex. rewrite app_nil_r in Bf, Nf.
        assert (Q : sg <> [45] /\ i' = i).
        { assert (H1 : forall l r, digits (45 :: l) -> r) by (intros l r D; apply digits_cons in D as [D _]; unfold digit_char in D; lia).
          assert (H2 : forall l (r : Prop), digits (43 :: l) -> r) by (intros l r D; apply digits_cons in D as [D _]; unfold digit_char in D; lia).
          destruct Pl as [->| ->], S as [->|[->| ->]]; cbn [app] in E.
          - split; [discriminate|exact E].
          - subst i'. eapply H2. exact Di'.
          - subst i'. eapply H1. exact Di'.
          - subst i. eapply H2. exact Di.
          - split; [discriminate|now injection E].
          - discriminate E. }
        destruct Q as [Q ->]. destruct B as [B|[B|[B|[B|[B|B]]]]]; try contradiction; lia.
  - intros [(sg & u & -> & S & U) A].
    destruct U as [(i & ex & -> & D & N & X)|[(i & f & ex & -> & Di & Df & N & X)|W]].
    + elim A. now constructor.
    + exists sg, i, f, ex. do 6 (split; [first [assumption|reflexivity]|]).
      destruct S as [->|[->| ->]]; [| |now left]; right.
      all: destruct i as [|c i]; [now left|]; right.
      all: destruct f as [|c' f]; [now left|]; right.
      all: destruct ex as [|c'' ex]; [right|left; discriminate].
      all: destruct (N.lt_ge_cases (dval (c :: i)) (2 ^ 64)) as [L|L]; [right|now left].
      all: destruct (N.lt_ge_cases (dval (c' :: f)) (2 ^ 64)) as [M|M]; [exfalso|assumption].
      all: apply A; rewrite app_nil_r.
      * apply (acc_fraction []); auto; discriminate.
      * apply (acc_fraction [43]); auto; discriminate.
    + elim A. now constructor.
Qed.
Lemma C81_lemma s t : utf8_valid s = true -> without_minus s t ->
  (operands_from_str s = Err "Incorrect number passed!" <-> ~ float_text t) /\
  (operands_from_str s = Err "Could not convert string to integer!" <-> bad_parts t) /\
  (forall e, operands_from_str s = Err e -> e = "Incorrect number passed!"%string \/ e = "Could not convert string to integer!"%string).
Proof.
  intros V W.
  assert (E : operands_from_str s = from_abs t).
  { destruct W as [->|[-> H]]; [|now apply from_str_plain]. apply from_str_minus. apply utf8_head.
    cbn in V. destruct t; [reflexivity|exact V]. }
  rewrite E, bad_parts_iff. destruct (from_abs_errors t) as [H1 H2]. split; [exact H1|]. split; [exact H2|].
  intros e K. clear - K. unfold from_abs in K. destruct (f64_from_str t) as [x|]; cbn [ok_or rbind] in K; [|left; congruence].
  destruct (find_byte 46 t) as [k|]; [|discriminate]. right. unfold slice_to, slice_from in K.
  destruct (is_char_boundary t k); cbn [rbind] in K; [|discriminate].
  destruct (is_char_boundary t (S k)); cbn [rbind] in K; [|discriminate].
  destruct (u64_from_str (firstn k t)); cbn [ok_or rbind] in K; [|congruence].
  destruct (u64_from_str (skipn (S k) t)); cbn [ok_or rbind] in K; [discriminate|congruence].
Qed.

(** ** C82 *)
Lemma same_small c c' d : same_sign c c' -> c <> 45 -> c <> 95 -> to_small c d -> to_small c' d.
Proof. unfold same_sign, to_small. lia. Qed.
Lemma same_capital c c' d : same_sign c c' -> c <> 45 -> c <> 95 -> to_capital c d -> to_capital c' d.
Proof. unfold same_sign, to_capital. lia. Qed.
Lemma same_letter c c' : same_sign c c' -> letter c -> letter c'.
Proof. unfold same_sign, letter. lia. Qed.
Lemma same_figure c c' : same_sign c c' -> figure c -> c = c'.
Proof. unfold same_sign, figure. lia. Qed.
Lemma same_no_sep c c' : same_sign c c' -> c <> 45 -> c <> 95 -> c' <> 45 /\ c' <> 95.
Proof. unfold same_sign. lia. Qed.
Definition plain (t : bytes) : Prop := ~ In 45 t /\ ~ In 95 t.
Lemma plain_cons c t : plain (c :: t) <-> c <> 45 /\ c <> 95 /\ plain t.
Proof.
  unfold plain. cbn. split.
  - intros [A B]. repeat split; intro H; first [apply A; now (left + right)|apply B; now (left + right)].
  - intros (A & B & C & D). split; intros [H|H]; auto.
Qed.
Lemma same_plain t t' : Forall2 same_sign t t' -> plain t -> plain t'.
Proof.
  induction 1 as [|c c' t t' S F IH]; [easy|]. rewrite !plain_cons. intros (A & B & C).
  destruct (same_no_sep c c' S A B). auto.
Qed.
Lemma pairs_length {A B} (R : A -> B -> Prop) l l' : Forall2 R l l' -> List.length l = List.length l'.
Proof. induction 1; cbn; congruence. Qed.
Lemma same_length t t' : Forall2 same_sign t t' -> List.length t = List.length t'.
Proof. apply pairs_length. Qed.
Lemma same_letters t t' : Forall2 same_sign t t' -> Forall letter t -> Forall letter t'.
Proof. induction 1; inversion 1; subst; constructor; eauto using same_letter. Qed.
Lemma same_figures t t' : Forall2 same_sign t t' -> Forall figure t -> t = t'.
Proof. induction 1; inversion 1; subst; [reflexivity|]. f_equal; eauto using same_figure. Qed.
Lemma same_smalls t t' l : Forall2 same_sign t t' -> plain t -> Forall2 to_small t l -> Forall2 to_small t' l.
Proof.
  intro S. revert l. induction S as [|c c' t t' S F IH]; intros l P H; inversion H; subst; constructor;
    apply plain_cons in P as (A & B & C); eauto using same_small.
Qed.
Lemma same_capitals t t' l : Forall2 same_sign t t' -> plain t -> Forall2 to_capital t l -> Forall2 to_capital t' l.
Proof.
  intro S. revert l. induction S as [|c c' t t' S F IH]; intros l P H; inversion H; subst; constructor;
    apply plain_cons in P as (A & B & C); eauto using same_capital.
Qed.
Lemma same_language t t' o : Forall2 same_sign t t' -> plain t -> language_of t o -> language_of t' o.
Proof.
  intros S P (L & N & l & F & E). split; [now apply (same_letters t)|]. split; [now rewrite <- (same_length t t' S)|].
  exists l. split; [now apply (same_smalls t)|exact E].
Qed.
Lemma same_script t t' s : Forall2 same_sign t t' -> plain t -> script_of t s -> script_of t' s.
Proof.
  intros S P (L & N & c & r & d & q & -> & C & F & ->). inversion S as [|? c' ? r' SC SR]; subst.
  apply plain_cons in P as (A & B & P). split; [now apply (same_letters (c :: r))|].
  split; [now rewrite <- (same_length _ _ S)|]. exists c', r', d, q. repeat split; eauto using same_capital, same_smalls.
Qed.
Lemma same_region t t' s : Forall2 same_sign t t' -> plain t -> region_of t s -> region_of t' s.
Proof.
  intros S P [(L & N & F)|(L & N & ->)].
  - left. split; [now apply (same_letters t)|]. split; [now rewrite <- (same_length _ _ S)|now apply (same_capitals t)].
  - right. rewrite <- (same_figures t t' S L). auto.
Qed.
Lemma same_variant t t' v : Forall2 same_sign t t' -> plain t -> variant_of t v -> variant_of t' v.
Proof.
  intros S P (L & F & N). split.
  - clear F N P. induction S as [|c c' t t' SC SR IH]; inversion L as [|? ? H K]; subst; constructor; [|now apply IH].
    destruct H as [H|H]; [left; now apply (same_letter c)|right; now rewrite <- (same_figure c c' SC H)].
  - split; [now apply (same_smalls t)|]. rewrite <- (same_length _ _ S).
    destruct N as [N|(N & c & r & -> & H)]; [now left|right]. split; [exact N|].
    inversion S as [|? c' ? r' SC SR]; subst. exists c', r'. split; [reflexivity|]. now rewrite <- (same_figure c c' SC H).
Qed.
Lemma subtags_plain l s : subtags l s -> Forall plain l.
Proof. induction 1; repeat constructor; auto. Qed.
Lemma same_subtags l s s' : subtags l s -> same_spelling s s' -> exists l', subtags l' s' /\ Forall2 same_spelling l l'.
Proof.
  unfold same_spelling. intro H. revert s'. induction H as [t A B|t c l s A B C H IH]; intros s' S.
  - exists [s']. destruct (same_plain t s' S (conj A B)). split; [now constructor|now repeat constructor].
  - apply Forall2_app_inv_l in S as (t' & r' & S1 & S2 & ->). inversion S2 as [|? c' ? q SC SR]; subst.
    destruct (IH q SR) as (l' & L & F). destruct (same_plain t t' S1 (conj A B)) as [A' B'].
    exists (t' :: l'). split; [|now constructor]. constructor; auto. unfold same_sign in SC. lia.
Qed.
Lemma same_maybe (P : bytes -> bytes -> Prop) l l' o :
  (forall t t' x, same_spelling t t' -> plain t -> P t x -> P t' x) ->
  Forall2 same_spelling l l' -> Forall plain l -> maybe P l o -> maybe P l' o.
Proof.
  intros H S PL [[-> ->]|(t & x & -> & Q & ->)]; [inversion S; now left|].
  inversion S as [|? t' ? r ST SR]; subst. inversion SR; subst. inversion PL; subst. right. exists t', x. eauto.
Qed.
Lemma same_names s s' id : same_spelling s s' -> names_id s id -> names_id s' id.
Proof.
  intros S (l & sc & rg & vs & T & L & SC & RG & VS).
  pose proof (subtags_plain _ _ T) as PL. inversion PL as [|? ? Pl P]; subst.
  apply Forall_app in P as [Psc P]. apply Forall_app in P as [Prg Pvs].
  destruct (same_subtags _ _ _ T S) as (k & T' & F). inversion F as [|? l' ? k' Sl F']; subst.
  apply Forall2_app_inv_l in F' as (sc' & k & Ssc & F' & ->). apply Forall2_app_inv_l in F' as (rg' & vs' & Srg & Svs & ->).
  exists l', sc', rg', vs'. split; [exact T'|]. split; [now apply (same_language l)|].
  split; [apply (same_maybe script_of sc); auto; exact same_script|].
  split; [apply (same_maybe region_of rg); auto; exact same_region|].
  destruct VS as [[-> E]|(v & so & NE & FV & E & I & M)]; [inversion Svs; now left|]. right. exists v, so.
  split; [intros ->; inversion Svs; now subst|]. split; [|auto].
  clear - FV Svs Pvs. revert v FV. induction Svs; intros v FV; inversion FV; subst; constructor;
    inversion Pvs; subst; eauto using same_variant.
Qed.

(** two names of an identifier without variants *)
Lemma small_same c c' d : to_small c d -> to_small c' d -> same_sign c c'.
Proof. unfold to_small, same_sign. lia. Qed.
Lemma capital_same c c' d : to_capital c d -> to_capital c' d -> same_sign c c'.
Proof. unfold to_capital, same_sign. lia. Qed.
Lemma smalls_same t t' l : Forall2 to_small t l -> Forall2 to_small t' l -> same_spelling t t'.
Proof.
  intro F. revert t'. induction F; intros t' F'; inversion F'; subst; constructor; eauto using small_same. now apply IHF.
Qed.
Lemma capitals_same t t' l : Forall2 to_capital t l -> Forall2 to_capital t' l -> same_spelling t t'.
Proof.
  intro F. revert t'. induction F; intros t' F'; inversion F'; subst; constructor; eauto using capital_same. now apply IHF.
Qed.
Lemma language_same t t' o : language_of t o -> language_of t' o -> same_spelling t t'.
Proof.
  intros (_ & _ & l & F & E) (_ & _ & l' & F' & E').
  assert (l = l') by (destruct E as [[-> ->]|[E ->]], E' as [[-> E']|[E' Q]]; congruence). subst l'.
  exact (smalls_same t t' l F F').
Qed.
Lemma script_same t t' s : script_of t s -> script_of t' s -> same_spelling t t'.
Proof.
  intros (_ & _ & c & r & d & q & -> & C & F & ->) (_ & _ & c' & r' & d' & q' & -> & C' & F' & E).
  injection E as <- <-. constructor; [exact (capital_same c c' d C C')|exact (smalls_same r r' q F F')].
Qed.
Lemma same_refl t : same_spelling t t.
Proof. induction t; constructor; auto. now left. Qed.
Lemma region_same t t' s : region_of t s -> region_of t' s -> same_spelling t t'.
Proof.
  intros [(L & N & F)|(L & N & ->)] [(L' & N' & F')|(L' & N' & E)].
  - exact (capitals_same t t' s F F').
  - subst s. apply pairs_length in F. lia.
  - apply pairs_length in F'. lia.
  - subst t'. apply same_refl.
Qed.
Lemma maybe_same (P : bytes -> bytes -> Prop) l l' o :
  (forall t t' x, P t x -> P t' x -> same_spelling t t') -> maybe P l o -> maybe P l' o -> Forall2 same_spelling l l'.
Proof.
  intros H [[-> ->]|(t & x & -> & Q & ->)] [[-> E]|(t' & x' & -> & Q' & E)]; try discriminate; [constructor|].
  injection E as <-. repeat constructor. eauto.
Qed.
Lemma subtags_same l l' s s' : subtags l s -> subtags l' s' -> Forall2 same_spelling l l' -> same_spelling s s'.
Proof.
  intro H. revert l' s'. induction H as [t A B|t c l s A B C H IH]; intros l' s' T F; inversion F as [|? t' ? r ST SR]; subst.
  - inversion SR; subst. inversion T as [|? ? ? ? ? ? ? K]; subst; [assumption|inversion K].
  - inversion T as [|? c' ? q A' B' C' K]; subst; [inversion SR; subst; inversion H|].
    apply Forall2_app; [exact ST|]. constructor; [unfold same_sign; lia|now apply (IH r)].
Qed.
Lemma names_same s s' id : li_variants id = None -> names_id s id -> names_id s' id -> same_spelling s s'.
Proof.
  intros V (l & sc & rg & vs & T & L & SC & RG & VS) (l' & sc' & rg' & vs' & T' & L' & SC' & RG' & VS').
  assert (vs = []) by (destruct VS as [[-> _]|(v & so & _ & _ & E & _)]; [reflexivity|congruence]).
  assert (vs' = []) by (destruct VS' as [[-> _]|(v & so & _ & _ & E & _)]; [reflexivity|congruence]). subst vs vs'.
  apply (subtags_same _ _ _ _ T T'). constructor; [exact (language_same l l' _ L L')|].
  apply Forall2_app; [exact (maybe_same script_of sc sc' _ script_same SC SC')|].
  apply Forall2_app; [exact (maybe_same region_of rg rg' _ region_same RG RG')|constructor].
Qed.
Lemma locales_no_variants t id : In id (get_locales t) -> li_variants id = None.
Proof.
  assert (H : forallb (fun id => match li_variants id with None => true | _ => false end) (get_locales t) = true)
    by (destruct t; vm_compute; reflexivity).
  intro I. rewrite forallb_forall in H. specialize (H _ I). now destruct (li_variants id).
Qed.
Lemma C82_lemma how t m : rule_map_of t (cldr_json t) = Some m -> forall s id,
  (langid_from_str s = Some id /\ (exists pr, create how id t = Ok pr)) <->
  (exists key rules, In (key, rules) m /\ key <> bs "root" /\ langid_from_str key = Some id /\ same_spelling key s).
Proof.
  intros M s id. destruct (C25_lemma t) as (_ & m' & M' & H). rewrite M in M'. injection M' as <-.
  destruct (C21_lemma how id t) as [C _]. rewrite C, H. split.
  - intros [E (key & rules & I & R & K)]. exists key, rules. split; [exact I|]. split; [exact R|]. split; [exact K|].
    apply (names_same key s id); [|now apply langid_iff|now apply langid_iff].
    apply (locales_no_variants t), H. eauto.
  - intros (key & rules & I & R & K & S). split; [|eauto].
    apply langid_iff. apply (same_names key s id S). now apply langid_iff.
Qed.
