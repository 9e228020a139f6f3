(** * Lemmas behind C34-C44 *)
From Coq Require Import Lia.
From Verif Require Import Base Nom Ast CldrParser Spec DigitFacts Grammar ParserFacts ParserComplete.
Open Scope N_scope.

Section Width.
Context {ptr : ptr_width}.

(** ** [str::trim] *)
Definition ws_list : list bytes :=
  [[9]; [10]; [11]; [12]; [13]; [32]; [194; 133]; [194; 160]; [225; 154; 128];
   [226; 128; 168]; [226; 128; 169]; [226; 128; 175]; [226; 129; 159]; [227; 128; 128];
   [226; 128; 128]; [226; 128; 129]; [226; 128; 130]; [226; 128; 131]; [226; 128; 132]; [226; 128; 133];
   [226; 128; 134]; [226; 128; 135]; [226; 128; 136]; [226; 128; 137]; [226; 128; 138]].
Lemma white_char_iff c : white_char c <-> In c ws_list.
Proof. reflexivity. Qed.

Lemma white_prefix c r : white_char c -> ws_prefix (c ++ r) = Some r.
Proof.
  rewrite white_char_iff. unfold ws_list. cbn [In]. intros H.
  repeat (destruct H as [<-|H]; [reflexivity|]). destruct H.
Qed.
Lemma range_cases a b x : (a <=? x) && (x <=? b) = true -> exists k, x = a + k /\ k <= b - a.
Proof. intros H. apply andb_prop in H as [A B]. apply N.leb_le in A, B. exists (x - a). lia. Qed.
Lemma ws_prefix_some s r : ws_prefix s = Some r -> exists c, white_char c /\ s = c ++ r.
Proof.
  intros H. unfold ws_prefix in H. destruct s as [|a s]; [discriminate|].
  destruct (((9 <=? a) && (a <=? 13)) || (a =? 32)) eqn:E1.
  { injection H as <-. exists [a]. split; [|reflexivity]. apply white_char_iff.
    apply Bool.orb_prop in E1 as [E1|E1].
    - apply andb_prop in E1 as [A B]. apply N.leb_le in A, B.
      assert (a = 9 \/ a = 10 \/ a = 11 \/ a = 12 \/ a = 13) as [->|[->|[->|[->| ->]]]] by lia; unfold ws_list; cbn [In]; tauto.
    - apply N.eqb_eq in E1. subst. unfold ws_list; cbn [In]; tauto. }
  destruct s as [|b s]; [discriminate|].
  destruct ((a =? 194) && ((b =? 133) || (b =? 160))) eqn:E2.
  { injection H as <-. exists [a; b]. split; [|reflexivity]. apply white_char_iff.
    apply andb_prop in E2 as [A B]. apply N.eqb_eq in A. apply Bool.orb_prop in B as [B|B]; apply N.eqb_eq in B; subst;
      unfold ws_list; cbn [In]; tauto. }
  destruct s as [|c s]; [discriminate|].
  match type of H with (if ?b then _ else _) = _ => destruct b eqn:E3; [|discriminate] end.
  injection H as <-. exists [a; b; c]. split; [|reflexivity]. apply white_char_iff.
  rewrite !Bool.orb_true_iff, !Bool.andb_true_iff, !Bool.orb_true_iff, !Bool.andb_true_iff, !N.eqb_eq, !N.leb_le in E3.
  destruct E3 as [[[[[-> ->] ->]|[[-> ->] [[[[A B]| ->]| ->]| ->]]]|[[-> ->] ->]]|[[-> ->] ->]];
    try (unfold ws_list; cbn [In]; tauto).
  assert (c = 128 \/ c = 129 \/ c = 130 \/ c = 131 \/ c = 132 \/ c = 133 \/ c = 134 \/ c = 135 \/ c = 136 \/ c = 137 \/ c = 138)
    as [->|[->|[->|[->|[->|[->|[->|[->|[->|[->| ->]]]]]]]]]] by lia; unfold ws_list; cbn [In]; tauto.
Qed.
Lemma ws_suffix_some s r : ws_suffix_rev s = Some r -> exists c, white_char c /\ s = rev c ++ r.
Proof.
  intros H. unfold ws_suffix_rev in H. destruct s as [|c s]; [discriminate|].
  destruct (((9 <=? c) && (c <=? 13)) || (c =? 32)) eqn:E1.
  { injection H as <-. exists [c]. split; [|reflexivity]. apply white_char_iff.
    apply Bool.orb_prop in E1 as [E1|E1].
    - apply andb_prop in E1 as [A B]. apply N.leb_le in A, B.
      assert (c = 9 \/ c = 10 \/ c = 11 \/ c = 12 \/ c = 13) as [->|[->|[->|[->| ->]]]] by lia; unfold ws_list; cbn [In]; tauto.
    - apply N.eqb_eq in E1. subst. unfold ws_list; cbn [In]; tauto. }
  destruct s as [|b s]; [discriminate|].
  destruct ((b =? 194) && ((c =? 133) || (c =? 160))) eqn:E2.
  { injection H as <-. exists [b; c]. split; [|reflexivity]. apply white_char_iff.
    apply andb_prop in E2 as [A B]. apply N.eqb_eq in A. apply Bool.orb_prop in B as [B|B]; apply N.eqb_eq in B; subst;
      unfold ws_list; cbn [In]; tauto. }
  destruct s as [|a s]; [discriminate|].
  match type of H with (if ?b then _ else _) = _ => destruct b eqn:E3; [|discriminate] end.
  injection H as <-. exists [a; b; c]. split; [|reflexivity]. apply white_char_iff.
  rewrite !Bool.orb_true_iff, !Bool.andb_true_iff, !Bool.orb_true_iff, !Bool.andb_true_iff, !N.eqb_eq, !N.leb_le in E3.
  destruct E3 as [[[[[-> ->] ->]|[[-> ->] [[[[A B]| ->]| ->]| ->]]]|[[-> ->] ->]]|[[-> ->] ->]];
    try (unfold ws_list; cbn [In]; tauto).
  assert (c = 128 \/ c = 129 \/ c = 130 \/ c = 131 \/ c = 132 \/ c = 133 \/ c = 134 \/ c = 135 \/ c = 136 \/ c = 137 \/ c = 138)
    as [->|[->|[->|[->|[->|[->|[->|[->|[->|[->| ->]]]]]]]]]] by lia; unfold ws_list; cbn [In]; tauto.
Qed.
Lemma white_char_nonempty c : white_char c -> c <> [].
Proof. rewrite white_char_iff. unfold ws_list. cbn [In]. intros H -> . repeat (destruct H as [H|H]; [discriminate|]). destruct H. Qed.

Lemma white_app a b : white a -> white b -> white (a ++ b).
Proof. intros A B. induction A; [exact B|]. rewrite <- app_assoc. now constructor. Qed.
Lemma white_one c : white_char c -> white c.
Proof. intros H. rewrite <- (app_nil_r c). constructor; [auto|constructor]. Qed.

Lemma trim_start_app w r : white w -> ws_prefix r = None -> forall n, (List.length (w ++ r) <= n)%nat ->
  trim_start_fuel n (w ++ r) = r.
Proof.
  intros W N. induction W as [|c w C W IH]; intros n L.
  - cbn [app]. destruct n; [reflexivity|]. cbn [trim_start_fuel]. now rewrite N.
  - rewrite <- app_assoc in *. rewrite app_length in L. pose proof (white_char_nonempty c C).
    destruct n; [destruct c; [easy|cbn in L; lia]|]. cbn [trim_start_fuel]. rewrite white_prefix by auto.
    apply IH. destruct c; [easy|]. cbn [List.length] in L. lia.
Qed.
Lemma white_split n : forall s, (List.length s <= n)%nat -> exists w r, s = w ++ r /\ white w /\ ws_prefix r = None.
Proof.
  induction n as [|n IH]; intros s L.
  - destruct s; [|cbn in L; lia]. exists [], []. repeat split; constructor.
  - destruct (ws_prefix s) as [r|] eqn:E.
    + apply ws_prefix_some in E as (c & C & ->). pose proof (white_char_nonempty c C).
      destruct (IH r) as (w & r' & -> & W & N); [rewrite app_length in L; destruct c; [easy|cbn in L; lia]|].
      exists (c ++ w), r'. split; [now rewrite app_assoc|]. split; [now constructor|auto].
    + exists [], s. repeat split; auto. constructor.
Qed.
Lemma trim_start_spec s : exists w, s = w ++ trim_start s /\ white w /\ ws_prefix (trim_start s) = None.
Proof.
  destruct (white_split (List.length s) s (le_n _)) as (w & r & -> & W & N).
  exists w. unfold trim_start. rewrite trim_start_app by auto. auto.
Qed.
Lemma trim_end_rev n : forall s, exists w, s = rev w ++ trim_end_rev_fuel n s /\ white w.
Proof.
  induction n as [|n IH]; intros s; cbn [trim_end_rev_fuel].
  - exists []. split; [reflexivity|constructor].
  - destruct (ws_suffix_rev s) as [r|] eqn:E.
    + apply ws_suffix_some in E as (c & C & ->). destruct (IH r) as (w & E & W).
      exists (w ++ c). split; [rewrite rev_app_distr, <- app_assoc; now rewrite <- E|].
      apply white_app; [auto|now apply white_one].
    + exists []. split; [reflexivity|constructor].
Qed.
Lemma trim_end_spec s : exists w, s = trim_end s ++ w /\ white w.
Proof.
  unfold trim_end. destruct (trim_end_rev (List.length s) (rev s)) as (w & E & W).
  exists w. split; [|auto]. rewrite <- (rev_involutive s) at 1. rewrite E at 1. rewrite rev_app_distr, rev_involutive. reflexivity.
Qed.
Lemma white_nil_or_prefix w r : white w -> w = [] \/ ws_prefix (w ++ r) <> None.
Proof.
  intros [|c s C W]; [now left|right]. rewrite <- app_assoc, white_prefix by auto. discriminate.
Qed.
(** a string that does not start with white space keeps its first character *)
Lemma trim_end_keeps c r : ws_prefix (c :: r) = None -> exists t, trim_end (c :: r) = c :: t.
Proof.
  intros N. destruct (trim_end_spec (c :: r)) as (w & E & W). destruct (trim_end (c :: r)) as [|x t].
  - cbn [app] in E. destruct (white_nil_or_prefix w [] W) as [->|K]; [discriminate|].
    rewrite app_nil_r, <- E in K. contradiction.
  - injection E as -> _. eauto.
Qed.
Lemma trim_head s : match trim_start s with [] => trim s = [] | c :: _ => exists t, trim s = c :: t end.
Proof.
  unfold trim. destruct (trim_start_spec s) as (w & _ & _ & N). destruct (trim_start s) as [|c r].
  - reflexivity.
  - now apply trim_end_keeps.
Qed.
Lemma trim_start_id c r : ws_prefix (c :: r) = None -> trim_start (c :: r) = c :: r.
Proof. intros N. apply (trim_start_app []); [constructor|auto|auto]. Qed.

Lemma trim_letter s r : letter_head s -> exists c t, trim (s ++ r) = c :: t /\ c <> 64.
Proof.
  intros (o & t & ->). pose proof (trim_head ((operand_text o ++ t) ++ r)) as H. rewrite <- app_assoc in *.
  destruct o; cbn [operand_text] in *; cbn [bs list_ascii_of_string List.map app N_of_ascii] in *;
   (rewrite trim_start_id in H by (cbn; destruct (t ++ r) as [|? [|? ?]]; reflexivity); destruct H as (u & H); eexists _, _; split; [exact H|discriminate]).
Qed.

(** ** The two entry points *)
Lemma condition_complete c s rest : g_condition true c s -> fol_condition rest -> p_condition (s ++ rest) = PO rest c.
Proof.
  intros G F. unfold p_condition. destruct (trim_letter s rest) as (x & t & -> & N).
  { now apply (condition_head true c). }
  apply N.eqb_neq in N. rewrite N. now apply or_complete.
Qed.
Lemma rule_complete r s : g_rule true r s -> parse_plural_rule s = Ok r.
Proof.
  intros [c sc sa ss G S]. unfold parse_plural_rule, p_rule, pmap, pseq, pbind.
  rewrite (condition_complete c sc ss G) by (eapply samples_fol; eauto).
  now rewrite (samples_complete sa ss S).
Qed.
Lemma condition_complete' r s : g_rule true r s -> parse_plural_condition s = Ok (ru_condition r).
Proof.
  intros [c sc sa ss G S]. unfold parse_plural_condition.
  now rewrite (condition_complete c sc ss G) by (eapply samples_fol; eauto).
Qed.

Lemma rule_condition s r : parse_plural_rule s = Ok r -> parse_plural_condition s = Ok (ru_condition r).
Proof.
  unfold parse_plural_rule, parse_plural_condition, p_rule, pmap, pseq, pbind.
  destruct (p_condition s) as [r1 c| |]; try discriminate.
  destruct (p_samples r1) as [r2 sa| |]; try discriminate. destruct r2; [|discriminate].
  intros H. now injection H as <-.
Qed.
Lemma no_panic s : (forall why, parse_plural_rule s <> Panic why) /\ (forall why, parse_plural_condition s <> Panic why).
Proof.
  unfold parse_plural_rule, parse_plural_condition. pose proof (rule_total s). pose proof (condition_total s).
  split; intros why; [destruct (p_rule s) as [[|] ?| |]|destruct (p_condition s)]; congruence.
Qed.

(** what acceptance says *)
Lemma sep_list_nonempty {A} sep (g : A -> bytes -> Prop) l s : sep_list sep g l s -> l <> [].
Proof. now intros [|]. Qed.
Lemma condition_empty s : p_condition s = PO [] [] <-> no_condition s.
Proof.
  unfold p_condition. pose proof (trim_head s) as T. destruct (trim_start_spec s) as (w & E & W & N).
  split.
  - intros H. destruct (trim_start s) as [|c r] eqn:TS.
    + left. rewrite E, app_nil_r. exact W.
    + destruct T as (t & T). rewrite T in H. destruct (N.eqb_spec c 64) as [->|NE].
      * right. exists w, r. auto.
      * exfalso. apply separated_nonempty_list_sound with (sep := word (bs "or")) (g := g_and false) in H;
          [|apply word_sound|apply and_sound]. destruct H as (x & _ & G). now apply sep_list_nonempty in G.
  - intros H. destruct H as [H|(w' & r & W' & ->)].
    + assert (TS : trim_start s = []).
      { unfold trim_start. rewrite <- (app_nil_r s) at 2. apply trim_start_app; [auto|reflexivity|now rewrite app_nil_r]. }
      rewrite TS in T. now rewrite T.
    + assert (TS : trim_start (w' ++ 64 :: r) = 64 :: r).
      { unfold trim_start. apply trim_start_app; [auto|cbn; destruct r as [|? [|? ?]]; reflexivity|auto]. }
      rewrite TS in T. destruct T as (t & T). now rewrite T.
Qed.
Lemma condition_cases s : (no_condition s /\ p_condition s = PO [] []) \/
  (~ no_condition s /\ p_condition s = separated_nonempty_list (p_word (bs "or")) p_and_condition s).
Proof.
  assert (K : p_condition s = PO [] [] \/ p_condition s = separated_nonempty_list (p_word (bs "or")) p_and_condition s).
  { unfold p_condition. destruct (trim s) as [|c t]; [now left|]. destruct (c =? 64); auto. }
  destruct K as [K|K].
  - left. split; [now apply condition_empty|auto].
  - right. split; [|auto]. rewrite <- condition_empty, K. intros H.
    apply (separated_nonempty_list_sound _ _ (word (bs "or")) (g_and false)) in H;
      [|apply word_sound|apply and_sound]. destruct H as (x & _ & G). now apply sep_list_nonempty in G.
Qed.
Lemma rule_sound s r : parse_plural_rule s = Ok r ->
  (no_condition s /\ r = mkRule [] None) \/ (~ no_condition s /\ g_rule false r s).
Proof.
  unfold parse_plural_rule, p_rule, pmap, pseq, pbind.
  destruct (condition_cases s) as [[NC ->]|[NC ->]].
  - cbn. intros H. injection H as <-. auto.
  - destruct (separated_nonempty_list _ _ s) as [r1 c| |] eqn:P; try discriminate.
    destruct (p_samples r1) as [r2 sa| |] eqn:Q; try discriminate. destruct r2; [|discriminate].
    intros H. injection H as <-. right. split; [exact NC|].
    apply separated_nonempty_list_sound with (sep := word (bs "or")) (g := g_and false) in P;
      [|apply word_sound|apply and_sound]. destruct P as (x & -> & G).
    apply samples_sound in Q as (y & -> & Q). rewrite app_nil_r. now constructor.
Qed.
Lemma condition_accepts s c : parse_plural_condition s = Ok c ->
  (no_condition s /\ c = []) \/ (~ no_condition s /\ exists t rest, s = t ++ rest /\ g_condition false c t).
Proof.
  unfold parse_plural_condition. destruct (condition_cases s) as [[NC ->]|[NC ->]].
  - intros H. injection H as <-. auto.
  - destruct (separated_nonempty_list _ _ s) as [r1 c'| |] eqn:P; try discriminate.
    intros H. injection H as <-. right. split; [exact NC|].
    apply separated_nonempty_list_sound with (sep := word (bs "or")) (g := g_and false) in P;
      [|apply word_sound|apply and_sound]. destruct P as (x & -> & G). eauto.
Qed.

(** without an empty list, the strict grammar *)
Lemma sep_list_impl {A} sep (g h : A -> bytes -> Prop) l s :
  sep_list sep g l s -> (forall a t, In a l -> g a t -> h a t) -> sep_list sep h l s.
Proof.
  induction 1 as [a t G|a t p l u G P L IH]; intros K.
  - constructor. apply K; [now left|auto].
  - constructor; [apply K; [now left|auto]|auto|]. apply IH. intros b v I. apply K. now right.
Qed.
Lemma strict_condition c s : g_condition false c s -> lists_nonempty c -> g_condition true c s.
Proof.
  intros G N. unfold lists_nonempty in N. rewrite Forall_forall in N.
  eapply sep_list_impl; [exact G|]. intros a t I A. specialize (N a I). rewrite Forall_forall in N.
  eapply sep_list_impl; [exact A|]. intros r u J R. specialize (N r J). revert N.
  destruct R as [e es b1 o os b2 l ls X1 X2 X3 X4 X5 X6]. cbn [rel_list]. intros N.
  constructor; auto. destruct X6 as [X6|(_ & X6 & _)]; [now left|]. now apply N in X6.
Qed.

(** numbers *)
Lemma list_fits l s : g_list l s -> Forall item_fits l.
Proof.
  intros G. assert (K : forall it t, g_item it t -> item_fits it).
  { intros it t [k u (_ & _ & _ & B)|lo up u v (_ & _ & _ & B1) (_ & _ & _ & B2)]; cbn; unfold value_fits; auto. }
  induction G; constructor; eauto.
Qed.
Lemma condition_fits_sound b c s : g_condition b c s -> condition_fits c /\ c <> [] /\ Forall (fun a => a <> []) c.
Proof.
  intros G. split; [|split; [now apply sep_list_nonempty in G|]].
  - assert (R : forall r t, g_relation b r t -> relation_fits r).
    { intros r t [e es b1 o os b2 l ls E _ _ _ _ L]. split; cbn [rel_expr rel_list].
      - destruct E as [|o' b1' w b2' k u _ _ _ (_ & _ & _ & B)]; cbn; auto.
      - destruct L as [L|(_ & -> & _)]; [now apply list_fits in L|constructor]. }
    assert (An : forall a t, g_and b a t -> Forall relation_fits a) by (intros a t H; induction H; constructor; eauto).
    induction G; constructor; eauto.
  - induction G; constructor; auto; now apply sep_list_nonempty in H.
Qed.
Lemma samples_fit_sound sa s : g_samples sa s -> match sa with Some x => samples_fit x | None => True end.
Proof.
  assert (D : forall d t, g_decimal d t -> decimal_fits d).
  { intros d t [k u (_ & _ & _ & B)|k u f v (_ & _ & _ & B1) (_ & _ & _ & B2)]; split; cbn; auto. }
  assert (R : forall d t, g_sample_range d t -> srange_fits d).
  { intros d t [x u G|x u b1 b2 y v G1 _ _ G2]; split; cbn; eauto. }
  assert (L : forall d t, g_sample_list d t -> slist_fits d).
  { intros d t G. assert (X : exists u, sep_list comma g_sample_range (sl_ranges d) u) by (destruct G; eauto).
    destruct X as (u & X). unfold slist_fits. induction X; constructor; eauto. }
  assert (P : forall w l t, g_part w l t -> match l with Some x => slist_fits x | None => True end).
  { intros w l t [|p l' u _ G]; [exact I|eauto]. }
  intros [i si d sd I D']. apply P in I, D'. unfold make_samples, samples_fit.
  destruct i, d; cbn; auto.
Qed.
Lemma rule_fits s r : parse_plural_rule s = Ok r ->
  condition_fits (ru_condition r) /\ match ru_samples r with Some x => samples_fit x | None => True end /\
  Forall (fun a => a <> []) (ru_condition r).
Proof.
  intros H. apply rule_sound in H as [[_ ->]|[_ [c sc sa ss G S]]]; cbn.
  - repeat split; constructor.
  - apply condition_fits_sound in G as (A & _ & B). apply samples_fit_sound in S. auto.
Qed.
Lemma condition_fits_parsed s c : parse_plural_condition s = Ok c -> condition_fits c /\ Forall (fun a => a <> []) c.
Proof.
  intros H. apply condition_accepts in H as [[_ ->]|(_ & t & rest & _ & G)].
  - split; constructor.
  - apply condition_fits_sound in G as (A & _ & B). auto.
Qed.
End Width.
