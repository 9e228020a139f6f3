(** * The parser of language identifiers against the grammar *)
From Coq Require Import Lia ZifyBool ZifyN Sorted.
From Verif Require Import Base DigitFacts LangId LangIdFacts JsonSpec LangSpec JsonDe.
Open Scope N_scope.

(** ** Letters *)
Lemma alpha_iff s : all_alpha s = true <-> Forall letter s.
Proof. unfold all_alpha. rewrite forallb_forall, Forall_forall. unfold is_alpha, letter. split; intros H c I'; specialize (H c I'); lia. Qed.
Lemma digit_iff s : all_digit s = true <-> Forall figure s.
Proof. unfold all_digit. rewrite forallb_forall, Forall_forall. unfold is_digit, figure. split; intros H c I'; specialize (H c I'); lia. Qed.
Lemma alnum_iff s : all_alnum s = true <-> Forall (fun c => letter c \/ figure c) s.
Proof.
  unfold all_alnum. rewrite forallb_forall, Forall_forall. unfold is_alnum, is_alpha, is_digit, letter, figure.
  split; intros H c I'; specialize (H c I'); lia.
Qed.
Lemma small_iff c d : to_small c d <-> d = to_lower c.
Proof. unfold to_small, to_lower. destruct ((65 <=? c) && (c <=? 90)) eqn:E; lia. Qed.
Lemma capital_iff c d : to_capital c d <-> d = to_upper c.
Proof. unfold to_capital, to_upper. destruct ((97 <=? c) && (c <=? 122)) eqn:E; lia. Qed.
Lemma map_iff {A B} (f : A -> B) (P : A -> B -> Prop) : (forall a b, P a b <-> b = f a) ->
  forall l m, Forall2 P l m <-> m = List.map f l.
Proof.
  intros E l. induction l as [|a l IH]; intros m; cbn [List.map].
  - split; [intros H; now inversion H|intros ->; constructor].
  - split.
    + intros H. inversion H as [|? b ? m' P1 P2]; subst. apply E in P1. apply IH in P2. congruence.
    + intros ->. constructor; [now apply E|now apply IH].
Qed.
Lemma lower_iff l m : Forall2 to_small l m <-> m = lower l.
Proof. apply map_iff, small_iff. Qed.
Lemma upper_iff l m : Forall2 to_capital l m <-> m = upper l.
Proof. apply map_iff, capital_iff. Qed.

Lemma language_iff t o : language_from_bytes t = Some o <-> language_of t o.
Proof.
  unfold language_from_bytes, language_of. split.
  - destruct (Nat.leb 2 (List.length t) && Nat.leb (List.length t) 8 && negb (Nat.eqb (List.length t) 4) && all_alpha t) eqn:E; [|discriminate].
    apply andb_prop in E as [E A]. intros H. split; [now apply alpha_iff|]. split; [cbn [In]; lia|].
    exists (lower t). split; [now apply lower_iff|]. cbv zeta in H. destruct (bytes_eqb (lower t) (bs "und")) eqn:U; rewrite ?U in H.
    + left. apply bytes_eqb_eq in U. split; [exact U|now injection H].
    + right. apply bytes_eqb_neq in U. split; [exact U|now injection H].
  - intros (A & L & l & S & U). apply alpha_iff in A. cbn [In] in L.
    replace (Nat.leb 2 (List.length t) && Nat.leb (List.length t) 8 && negb (Nat.eqb (List.length t) 4) && all_alpha t) with true by (rewrite A; lia).
    apply lower_iff in S. subst l. destruct U as [[U ->]|[U ->]].
    + apply bytes_eqb_eq in U. now rewrite U.
    + apply bytes_eqb_neq in U. now rewrite U.
Qed.
Lemma script_iff t s : script_from_bytes t = Some s <-> script_of t s.
Proof.
  unfold script_from_bytes, script_of. split.
  - destruct (Nat.eqb (List.length t) 4 && all_alpha t) eqn:E; [|discriminate]. apply andb_prop in E as [L A]. apply Nat.eqb_eq in L.
    intros H. split; [now apply alpha_iff|]. split; [exact L|]. destruct t as [|c r]; [discriminate|].
    exists c, r, (to_upper c), (lower r). split; [reflexivity|]. split; [now apply capital_iff|]. split; [now apply lower_iff|]. cbn [title] in H. congruence.
  - intros (A & L & c & r & d & q & -> & C & S & ->). apply alpha_iff in A. rewrite A, L. cbn [Nat.eqb andb title].
    apply capital_iff in C. apply lower_iff in S. congruence.
Qed.
Lemma region_iff t s : region_from_bytes t = Some s <-> region_of t s.
Proof.
  unfold region_from_bytes, region_of. split.
  - destruct (Nat.eqb (List.length t) 2 && all_alpha t) eqn:E.
    { apply andb_prop in E as [L A]. apply Nat.eqb_eq in L. intros H. left. split; [now apply alpha_iff|]. split; [exact L|]. apply upper_iff. congruence. }
    destruct (Nat.eqb (List.length t) 3 && all_digit t) eqn:E2; [|discriminate]. apply andb_prop in E2 as [L A]. apply Nat.eqb_eq in L.
    intros H. right. split; [now apply digit_iff|]. split; [exact L|now injection H].
  - intros [(A & L & U)|(A & L & ->)].
    + apply alpha_iff in A. rewrite A, L. cbn [Nat.eqb andb]. apply upper_iff in U. now subst.
    + apply digit_iff in A. rewrite A, L. reflexivity.
Qed.
Lemma variant_iff t s : variant_from_bytes t = Some s <-> variant_of t s.
Proof.
  unfold variant_from_bytes, variant_of. split.
  - destruct (Nat.leb 5 (List.length t) && Nat.leb (List.length t) 8 && all_alnum t) eqn:E.
    { apply andb_prop in E as [L A]. intros H. split; [now apply alnum_iff|]. split; [apply lower_iff; congruence|]. left. cbn [In]. lia. }
    destruct t as [|c r]; [discriminate|]. destruct (Nat.eqb (List.length (c :: r)) 4 && is_digit c && all_alnum (c :: r)) eqn:E2; [|discriminate].
    apply andb_prop in E2 as [E2 A]. apply andb_prop in E2 as [L D]. intros H. split; [now apply alnum_iff|]. split; [apply lower_iff; congruence|].
    right. split; [now apply Nat.eqb_eq|]. exists c, r. split; [reflexivity|]. unfold is_digit in D. unfold figure. lia.
  - intros (A & S & L). apply alnum_iff in A. apply lower_iff in S. subst s. destruct L as [L|(L & c & r & -> & F)].
    + cbn [In] in L. now replace (Nat.leb 5 (List.length t) && Nat.leb (List.length t) 8 && all_alnum t) with true by (rewrite A; lia).
    + rewrite L, A. cbn [Nat.leb Nat.eqb andb]. now replace (is_digit c) with true by (unfold is_digit, figure in *; lia).
Qed.

(** ** Subtags *)
Definition sep (c : N) : bool := (c =? 45) || (c =? 95).
Lemma split_nonempty p s : split_on p s <> [].
Proof. destruct s as [|c r]; cbn; [discriminate|]. destruct (p c); [discriminate|]. destruct (split_on p r); discriminate. Qed.
Lemma split_iff s : forall l, split_on sep s = l <-> subtags l s.
Proof.
  assert (F : forall s, subtags (split_on sep s) s).
  { induction s0 as [|c r IH]; cbn [split_on]; [constructor; intros []|]. destruct (sep c) eqn:E.
    - apply (st_more [] c); try (intros []). unfold sep in E. lia. exact IH.
    - assert (C : c <> 45 /\ c <> 95) by (unfold sep in E; lia). inversion IH as [t A B X Y|t d l q A B D Q X Y].
      + constructor; cbn [In]; intuition congruence.
      + apply (st_more (c :: t) d l q); cbn [In]; intuition congruence. }
  assert (G : forall l s, subtags l s -> split_on sep s = l).
  { induction 1 as [t A B|t c l q A B C Q IH].
    - induction t as [|c t IH]; [reflexivity|]. cbn [split_on In] in *.
      replace (sep c) with false by (unfold sep; symmetry; assert (c <> 45 /\ c <> 95) by (split; intros ->; tauto); lia). rewrite IH; tauto.
    - induction t as [|d t IHt]; cbn [app split_on In] in *.
      + replace (sep c) with true by (unfold sep; lia). now rewrite IH.
      + replace (sep d) with false by (unfold sep; symmetry; assert (d <> 45 /\ d <> 95) by (split; intros ->; tauto); lia). rewrite IHt; tauto. }
  intros l. split; [intros <-; apply F|apply G].
Qed.

(** ** Sorted variants *)
Lemma texts_sorted l : texts_increase l <-> StronglySorted before l.
Proof.
  split.
  - intros H. apply Sorted_StronglySorted; [intros a b c; apply before_trans|].
    induction l as [|a l IH]; [constructor|]. destruct l as [|b l]; [repeat constructor|].
    cbn [texts_increase] in H. destruct H as [L H]. constructor; [now apply IH|]. now constructor.
  - induction 1 as [|a l S IH F]; [exact Logic.I|]. destruct l as [|b l]; [exact Logic.I|].
    cbn [texts_increase]. split; [|exact IH]. now inversion F.
Qed.
Lemma texts_unique l m : StronglySorted before l -> StronglySorted before m -> (forall e, In e l <-> In e m) -> l = m.
Proof.
  intros S. revert m. induction S as [|a l S IH F]; intros m S' E.
  - destruct m as [|b m]; [reflexivity|]. destruct (proj2 (E b)). now left.
  - destruct S' as [|b m S' F']; [destruct (proj1 (E a)); now left|].
    rewrite Forall_forall in F, F'. assert (a = b).
    { destruct (proj1 (E a)) as [Hb|Hb]; [now left|congruence|]. destruct (proj2 (E b)) as [Ha|Ha]; [now left|congruence|].
      destruct (before_irrefl a). eapply before_trans; [apply (F _ Ha)|apply (F' _ Hb)]. }
    subst b. f_equal. apply IH; [exact S'|]. intros e. split; intros H.
    + destruct (proj1 (E e)) as [<-|G]; [now right| |exact G]. destruct (before_irrefl a). apply (F _ H).
    + destruct (proj2 (E e)) as [<-|G]; [now right| |exact G]. destruct (before_irrefl a). apply (F' _ H).
Qed.
Lemma insert_bytes_in x l y : In y (insert_bytes x l) <-> y = x \/ In y l.
Proof.
  induction l as [|a l IH]; cbn [insert_bytes]; [cbn; intuition congruence|]. destruct (bytes_compare x a) eqn:C.
  - apply bytes_compare_eq in C. subst a. cbn. intuition congruence.
  - cbn. intuition congruence.
  - cbn [In]. rewrite IH. intuition congruence.
Qed.
Lemma insert_bytes_sorted x l : StronglySorted before l -> StronglySorted before (insert_bytes x l).
Proof.
  intros S. induction S as [|a l S IH F]; cbn [insert_bytes]; [repeat constructor|]. destruct (bytes_compare x a) eqn:C.
  - now constructor.
  - apply before_iff in C. constructor; [now constructor|]. constructor; [exact C|].
    eapply Forall_impl; [|exact F]. intros e H. eapply before_trans; [exact C|exact H].
  - constructor; [exact IH|]. rewrite Forall_forall in *. intros e H. apply insert_bytes_in in H. destruct H as [-> |H]; [|now apply F].
    apply before_iff. rewrite (tc_anti _ total_bytes x a), C. reflexivity.
Qed.

(** ** Subtags after the language *)
Lemma parse_variants l : forall sc rg acc r, StronglySorted before acc ->
  (parse_subtags 3 sc rg acc l = Some r <->
   exists vs m, Forall2 variant_of l vs /\ r = (sc, rg, m) /\ StronglySorted before m /\ forall v, In v m <-> In v vs \/ In v acc).
Proof.
  induction l as [|t l IH]; intros sc rg acc r S; cbn [parse_subtags Nat.eqb Nat.leb].
  - split.
    + intros H. exists [], acc. split; [constructor|]. split; [congruence|]. split; [exact S|]. intros v. cbn. tauto.
    + intros (vs & m & F & -> & S' & E). inversion F; subst. do 2 f_equal. apply texts_unique; [exact S|exact S'|]. intros e. rewrite E. cbn. tauto.
  - split.
    + destruct (variant_from_bytes t) as [x|] eqn:V; [|discriminate]. intros H. apply IH in H; [|now apply insert_bytes_sorted].
      destruct H as (vs & m & F & -> & S' & E). exists (x :: vs), m. split; [constructor; [now apply variant_iff|exact F]|]. split; [reflexivity|].
      split; [exact S'|]. intros v. rewrite E, insert_bytes_in. cbn. intuition congruence.
    + intros (vs & m & F & -> & S' & E). inversion F as [|? x ? vs' V F']; subst. apply variant_iff in V. rewrite V.
      apply IH; [now apply insert_bytes_sorted|]. exists vs', m. split; [exact F'|]. split; [reflexivity|]. split; [exact S'|].
      intros v. rewrite E, insert_bytes_in. cbn. intuition congruence.
Qed.
Definition variants_found (l : list bytes) (m : list bytes) : Prop :=
  exists vs, Forall2 variant_of l vs /\ StronglySorted before m /\ forall v, In v m <-> In v vs.
Lemma parse_variants_iff l sc rg r : parse_subtags 3 sc rg [] l = Some r <-> exists m, variants_found l m /\ r = (sc, rg, m).
Proof.
  rewrite parse_variants by constructor. unfold variants_found. split.
  - intros (vs & m & F & E & S & I'). exists m. split; [|exact E]. exists vs. split; [exact F|]. split; [exact S|]. intros v. rewrite I'. cbn. tauto.
  - intros (m & (vs & F & S & I') & E). exists vs, m. split; [exact F|]. split; [exact E|]. split; [exact S|]. intros v. rewrite I'. cbn. tauto.
Qed.
Lemma variant_length t v : variant_of t v -> (4 <= List.length t)%nat.
Proof. intros (_ & _ & [L|[L _]]); cbn [In] in *; lia. Qed.
Lemma region_length t v : region_of t v -> (List.length t <= 3)%nat.
Proof. intros [(_ & L & _)|(_ & L & _)]; lia. Qed.
Lemma script_not_variant t s v : script_of t s -> variant_of t v -> False.
Proof.
  intros (A & L & _) (_ & _ & [V|(_ & c & r & -> & F)]); [cbn [In] in V; lia|]. inversion A as [|? ? C _]; subst.
  unfold letter, figure in *. lia.
Qed.
Lemma option_none {A} (o : option A) : (forall x, o <> Some x) -> o = None.
Proof. destruct o as [x|]; [intros H; now destruct (H x)|reflexivity]. Qed.
Lemma pos2_iff l sc r : parse_subtags 2 sc None [] l = Some r <->
  exists rg vs o m, l = rg ++ vs /\ maybe region_of rg o /\ variants_found vs m /\ r = (sc, o, m).
Proof.
  destruct l as [|t l].
  - cbn [parse_subtags]. split.
    + intros H. exists [], [], None, []. split; [reflexivity|]. split; [now left|]. split; [exists []; repeat split; try constructor; tauto|congruence].
    + intros (rg & vs & o & m & E & R & (xs & F & S & I') & ->). symmetry in E. apply app_eq_nil in E as [-> ->].
      destruct R as [[_ ->]|(t & x & X & _)]; [|discriminate]. inversion F; subst. destruct m as [|a m]; [reflexivity|]. destruct (proj1 (I' a)). now left.
  - cbn [parse_subtags Nat.eqb Nat.leb]. split.
    + destruct (region_from_bytes t) as [x|] eqn:R.
      * intros H. apply parse_variants_iff in H as (m & V & ->). exists [t], l, (Some x), m. split; [reflexivity|].
        split; [right; exists t, x; apply region_iff in R; auto|]. auto.
      * intros H. assert (H' : parse_subtags 3 sc None [] (t :: l) = Some r) by exact H. apply parse_variants_iff in H' as (m & V & ->).
        exists [], (t :: l), None, m. split; [reflexivity|]. split; [now left|]. auto.
    + intros (rg & vs & o & m & E & R & V & ->). destruct R as [[-> ->]|(t' & x & -> & R & ->)]; cbn in E.
      * subst vs. assert (N : region_from_bytes t = None).
        { apply option_none. intros x R. apply region_iff, region_length in R. destruct V as (xs & F & _). inversion F as [|? y ? ? Y _]; subst.
          apply variant_length in Y. lia. }
        rewrite N. change (parse_subtags 3 sc None [] (t :: l) = Some (sc, None, m)). apply parse_variants_iff. eauto.
      * injection E as <- <-. apply region_iff in R. rewrite R. apply parse_variants_iff. eauto.
Qed.
Lemma pos1_iff l r : parse_subtags 1 None None [] l = Some r <->
  exists sc rg vs os o m, l = sc ++ rg ++ vs /\ maybe script_of sc os /\ maybe region_of rg o /\ variants_found vs m /\ r = (os, o, m).
Proof.
  assert (P2 : forall r, (exists rg vs o m, l = rg ++ vs /\ maybe region_of rg o /\ variants_found vs m /\ r = (None, o, m)) ->
     exists sc rg vs os o m, l = sc ++ rg ++ vs /\ maybe script_of sc os /\ maybe region_of rg o /\ variants_found vs m /\ r = (os, o, m)).
  { intros r' (rg & vs & o & m & E & R & V & ->). exists [], rg, vs, None, o, m. split; [exact E|]. split; [now left|auto]. }
  destruct l as [|t l].
  - split; [intros H; apply P2; now apply pos2_iff|].
    intros (sc & rg & vs & os & o & m & E & Sc & R & V & ->). change (parse_subtags 2 None None [] [] = Some (os, o, m)). apply pos2_iff.
    symmetry in E. apply app_eq_nil in E as [-> E]. destruct Sc as [[_ ->]|(t & x & X & _)]; [|discriminate]. exists rg, vs, o, m. auto.
  - destruct (script_from_bytes t) as [s|] eqn:Sc.
    + cbn [parse_subtags Nat.eqb]. rewrite Sc, pos2_iff. split.
      * intros (rg & vs & o & m & -> & R & V & ->). exists [t], rg, vs, (Some s), o, m. split; [reflexivity|].
        split; [right; exists t, s; apply script_iff in Sc; auto|auto].
      * intros (sc & rg & vs & os & o & m & E & M & R & V & ->). apply script_iff in Sc. destruct M as [[-> ->]|(t' & s' & -> & S' & ->)]; cbn in E.
        -- exfalso. destruct R as [[-> ->]|(t' & x & -> & R & ->)]; cbn in E.
           ++ subst vs. destruct V as (xs & F & _). inversion F as [|? y ? ? Y _]; subst. now apply (script_not_variant t s y).
           ++ injection E as <- _. apply region_length in R. destruct Sc as (_ & L & _). lia.
        -- injection E as <- ->. exists rg, vs, o, m. apply script_iff in S', Sc. replace s with s' by congruence. auto.
    + assert (H : parse_subtags 1 None None [] (t :: l) = parse_subtags 2 None None [] (t :: l)) by (cbn [parse_subtags Nat.eqb Nat.leb]; now rewrite Sc).
      rewrite H, pos2_iff. split; [apply P2|]. intros (sc & rg & vs & os & o & m & E & M & R & V & ->).
      destruct M as [[-> ->]|(t' & s' & -> & S' & ->)]; cbn in E; [exists rg, vs, o, m; auto|].
      injection E as <- _. apply script_iff in S'. congruence.
Qed.
Lemma langid_iff s id : langid_from_str s = Some id <-> names_id s id.
Proof.
  unfold langid_from_str, names_id. change (fun c => (c =? 45) || (c =? 95)) with sep.
  assert (VF : forall vs m, variants_found vs m -> variants_of vs (match m with [] => None | _ => Some m end)).
  { intros vs m (xs & F & S & E). destruct vs as [|t vs].
    - inversion F; subst. left. split; [reflexivity|]. destruct m as [|a m]; [reflexivity|]. destruct (proj1 (E a)). now left.
    - inversion F as [|? x ? xs' X F']; subst. right. exists (x :: xs'), m. split; [discriminate|]. split; [exact F|].
      split; [|split; [now apply texts_sorted|exact E]]. destruct m as [|a m]; [|reflexivity]. destruct (proj2 (E x)). now left. }
  assert (FV : forall vs o, variants_of vs o -> exists m, variants_found vs m /\ o = match m with [] => None | _ => Some m end).
  { intros vs o [[-> ->]|(xs & m & N & F & -> & S & E)].
    - exists []. split; [|reflexivity]. exists []. repeat split; try constructor; tauto.
    - exists m. split; [exists xs; split; [exact F|]; split; [now apply texts_sorted|exact E]|].
      destruct m as [|a m]; [|reflexivity]. destruct F as [|t x vs xs]; [contradiction|]. destruct (proj2 (E x)). now left. }
  split.
  - destruct (split_on sep s) as [|l rest] eqn:Sp; [discriminate|]. destruct (language_from_bytes l) as [lang|] eqn:L; [|discriminate].
    destruct (parse_subtags 1 None None [] rest) as [[[sc rg] vs]|] eqn:P; [|discriminate]. intros H.
    apply pos1_iff in P as (lsc & lrg & lvs & os & o & m & -> & A & B & C & E). exists l, lsc, lrg, lvs. split; [now apply split_iff|].
    assert (E1 : os = sc) by congruence. assert (E2 : o = rg) by congruence. assert (E3 : m = vs) by congruence. subst os o m.
    assert (I' : id = mkLang lang sc rg (match vs with [] => None | _ => Some vs end)) by (destruct vs; congruence). subst id.
    cbn [li_language li_script li_region li_variants]. split; [now apply language_iff|]. auto.
  - intros (l & sc & rg & vs & T & L & A & B & C). apply split_iff in T. rewrite T. apply language_iff in L. rewrite L.
    apply FV in C as (m & C & E). assert (P : parse_subtags 1 None None [] (sc ++ rg ++ vs) = Some (li_script id, li_region id, m)).
    { apply pos1_iff. exists sc, rg, vs, (li_script id), (li_region id), m. auto. }
    rewrite P. destruct id as [i1 i2 i3 i4]; cbn [li_language li_script li_region li_variants] in *. congruence.
Qed.
