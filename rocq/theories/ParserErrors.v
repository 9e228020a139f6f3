(** * What the rule parser reports when it fails *)
From Coq Require Import Lia.
From Verif Require Import Base Nom Ast CldrParser Spec DigitFacts Grammar ParserFacts ParserComplete ParserProps ParserExact.
Open Scope N_scope.

Section Width.
Context {ptr : ptr_width}.

(** ** Samples are read as far as possible *)
Lemma popt_runs {A} (p : parser A) g : sound p g -> total p -> (forall a s, g a s -> s <> []) ->
  forall i, exists u r o, i = u ++ r /\ popt p i = PO r o /\ (u = [] -> o = None).
Proof.
  intros S T NE i. unfold popt. pose proof (T i). destruct (p i) as [r a| |] eqn:E; [| |congruence].
  - apply S in E as (s & -> & G). exists s, r, (Some a). split; [reflexivity|]. split; [reflexivity|].
    intros ->. now elim (NE a [] G).
  - exists [], i, None. auto.
Qed.

Lemma decimal_grows : grows p_decimal_value g_decimal.
Proof.
  intros d s rest G W. unfold p_decimal_value, pmap, pseq. destruct G as [k s G|k s f t G1 G2].
  - assert (ND : no_digit rest) by (destruct G as (X & Y & _); now apply (whole_digits s)).
    rewrite (value_complete k s rest G ND). cbn [pbind].
    destruct (popt_runs (preceded (tag (bs ".")) p_value) _ (preceded_sound _ _ _ _ (tag_sound _) value_sound)
                (preceded_total _ _ (tag_total _) value_total)) with (i := rest) as (u & r & o & -> & -> & K).
    { intros a x (y & v & w & -> & -> & _). discriminate. }
    exists u, r, (mkDec k o). split; [reflexivity|]. split; [reflexivity|]. intros Z. now rewrite K.
  - assert (ND : no_digit rest).
    { rewrite app_assoc in W. destruct G2 as (X & Y & _). apply whole_app in W; [|exact Y]. now apply (whole_digits t). }
    exists [], rest. eexists. split; [reflexivity|]. rewrite <- !app_assoc.
    rewrite (value_complete k s _ G1) by (intros c r E; now injection E as <- _). unfold popt, preceded, pbind.
    rewrite tag_app. now rewrite (value_complete f t rest G2).
Qed.
Lemma tilde_sound : sound p_tilde (fun _ s => s <> []).
Proof.
  eapply sound_weaken; [exact (pseq_sound _ _ _ _ space0_sound (pseq_sound _ _ _ _ (tag_sound (bs "~")) space0_sound))|].
  intros [a [b c]] s. cbn [fst snd]. intros (x & y & -> & _ & z & w & -> & -> & _) E.
  apply app_eq_nil in E as [_ E]. discriminate E.
Qed.
Lemma tilde_total : total p_tilde.
Proof. unfold p_tilde. auto 10 using pseq_total, space0_total, tag_total. Qed.
Lemma sample_range_grows : grows p_sample_range g_sample_range.
Proof.
  intros d s rest G W. unfold p_sample_range. fold p_tilde. unfold pmap, pseq.
  destruct G as [x s G|x s b1 b2 y t G1 B1 B2 G2].
  - destruct (decimal_grows x s rest G W) as (u & r & x' & -> & -> & K). cbn [pbind].
    destruct (popt_runs (preceded p_tilde p_decimal_value) _ (preceded_sound _ _ _ _ tilde_sound decimal_sound)
                (preceded_total _ _ tilde_total decimal_total)) with (i := r) as (u2 & r2 & o & -> & -> & K2).
    { intros a z (v & w & w' & -> & N & _) E. apply app_eq_nil in E as [E _]. easy. }
    exists (u ++ u2), r2, (mkSR x' o). split; [now rewrite app_assoc|]. split; [reflexivity|].
    intros Z. apply app_eq_nil in Z as [Z1 Z2]. now rewrite K, K2.
  - rewrite <- !app_assoc.
    rewrite (decimal_complete x s _ G1) by (apply fol_blank0; [auto|now apply fol_cons]). cbn [pbind].
    assert (P : p_tilde (b1 ++ bs "~" ++ b2 ++ t ++ rest) = PO (t ++ rest) (b1, (bs "~", b2))).
    { unfold p_tilde, pseq, pbind. rewrite space0_app by (auto; now apply no_blank_cons).
      rewrite tag_app, space0_app by (auto; apply digit_head_blank; now apply (decimal_head y)). reflexivity. }
    unfold popt, preceded. rewrite P. cbn [pbind].
    destruct (decimal_grows y t rest G2) as (u & r & y' & -> & -> & K).
    { pose proof (head_nonempty t (decimal_head y t G2)). rewrite !app_assoc in W. now apply whole_app in W. }
    exists u, r. eexists. split; [reflexivity|]. split; [reflexivity|]. intros Z. now rewrite K.
Qed.
Lemma sranges_grows : grows (separated_nonempty_list p_comma p_sample_range) (sep_list comma g_sample_range).
Proof.
  intros l s rest G. apply (last_list_grows p_comma p_sample_range comma g_sample_range comma_sound sample_range_sound
    comma_total sample_range_total comma_nonempty g_sample_range g_sample_range fol_srange).
  - intros a t r I K. now apply sample_range_complete.
  - exact sample_range_grows.
  - intros a t I. apply head_nonempty. now apply (sample_range_head a).
  - intros a t I. apply head_nonempty. now apply (sample_range_head a).
  - intros q a t r Q I. now apply comma_fol_srange.
  - intros q a t r Q I. apply comma_complete; [auto|]. apply digit_head_blank. destruct I; now apply (sample_range_head a).
  - now apply (sep_last comma g_sample_range g_sample_range).
Qed.
Definition p_dots : parser bytes := palt (tag (bs "...")) (tag (bs "…")).
Definition p_more : parser bytes := preceded p_comma p_dots.
Lemma more_sound : sound p_more (fun _ s => exists p w, s = p ++ w /\ comma p /\ (w = bs "..." \/ w = bs "…")).
Proof.
  eapply sound_weaken; [exact (preceded_sound _ _ _ _ comma_sound (palt_sound _ _ _ _ (tag_sound (bs "...")) (tag_sound (bs "…"))))|].
  intros b s (a & x & y & -> & C & W). now exists x, y.
Qed.
Lemma more_total : total p_more.
Proof. unfold p_more, p_dots. auto 10 using preceded_total, comma_total, palt_total, tag_total. Qed.
Lemma sample_list_grows : grows p_sample_list g_sample_list.
Proof.
  intros x s rest G W. unfold p_sample_list. fold p_dots p_more. unfold pmap, pseq.
  destruct G as [l s G|l s p w G P D].
  - destruct (sranges_grows l s rest G W) as (u & r & l' & -> & -> & K). cbn [pbind].
    destruct (popt_runs p_more _ more_sound more_total) with (i := r) as (u2 & r2 & o & -> & -> & K2).
    { intros a z (v & w & -> & C & _) E. apply app_eq_nil in E as [E _]. now apply (comma_nonempty v). }
    exists (u ++ u2), r2. eexists. split; [now rewrite app_assoc|]. split; [reflexivity|].
    intros Z. apply app_eq_nil in Z as [Z1 Z2]. now rewrite K, K2.
  - exists [], rest. eexists. split; [reflexivity|]. rewrite <- !app_assoc.
    assert (NB : no_blank (w ++ rest)) by (destruct D as [->| ->]; now apply no_blank_cons).
    destruct (comma_complete p w rest P NB) as (x & PC).
    rewrite (sranges_complete l s _ G).
    + unfold p_more, p_dots, popt, preceded, pbind. rewrite PC. unfold palt. destruct D as [->| ->].
      * now rewrite tag_app.
      * assert (X : tag (bs "...") (bs "…" ++ rest) = PE) by reflexivity. rewrite X. now rewrite tag_app.
    + now apply comma_fol_srange.
    + right. exists (w ++ rest), x. split; [exact PC|]. split.
      * apply app_neq. now apply comma_nonempty.
      * destruct D as [->| ->]; reflexivity.
Qed.

Definition p_part (w : bytes) : parser (option sample_list) := popt (preceded (p_word w) p_sample_list).
Lemma part_sound w : sound (p_part w) (g_part w).
Proof.
  eapply sound_weaken; [exact (popt_sound _ _ (preceded_sound _ _ _ _ (word_sound w) sample_list_sound))|].
  intros [l|] s H; [|subst; constructor]. destruct H as (a & u & v & -> & W & G). now constructor.
Qed.
Lemma part_nil w l : g_part w l [] -> l = None.
Proof.
  intros G. inversion G as [|p x s W S E E2]; [reflexivity|]. apply app_eq_nil in E2 as [-> _]. now apply word_nonempty in W.
Qed.
Lemma part_runs w i : exists u r l, i = u ++ r /\ p_part w i = PO r l /\ g_part w l u /\ (u = [] -> l = None).
Proof.
  pose proof (popt_total _ (preceded_total _ _ (word_total w) sample_list_total) i) as T.
  change (p_part w i <> PFuel) in T.
  destruct (p_part w i) as [r l| |] eqn:E; [| |congruence].
  - apply part_sound in E as (u & -> & G). exists u, r, l. split; [reflexivity|]. split; [reflexivity|]. split; [exact G|].
    intros ->. now apply part_nil in G.
  - unfold p_part, popt in E. destruct (preceded (p_word w) p_sample_list i); discriminate.
Qed.
Lemma part_grows t p l s rest : word (64 :: t) p -> g_sample_list l s -> whole s rest ->
  exists u r l', rest = u ++ r /\ p_part (64 :: t) (p ++ s ++ rest) = PO r (Some l') /\ (u = [] -> l' = l).
Proof.
  intros P G W. unfold p_part, popt, preceded.
  destruct (word_complete _ p s rest P) as (x & ->); [now apply no_blank_cons|easy| |].
  { apply digit_head_blank. now apply (sample_list_head l). }
  cbn [pbind]. destruct (sample_list_grows l s rest G W) as (u & r & l' & -> & -> & K). exists u, r, l'. auto.
Qed.
Lemma samples_eq i : p_samples i = pbind (p_part (bs "@integer") i) (fun r a =>
  pbind (p_part (bs "@decimal") r) (fun r' b => PO r' (make_samples a b))).
Proof.
  unfold p_samples, pmap, pseq, p_part, pbind.
  destruct (popt (preceded (p_word (bs "@integer")) p_sample_list) i) as [r a| |]; [|reflexivity|reflexivity].
  now destruct (popt (preceded (p_word (bs "@decimal")) p_sample_list) r).
Qed.
Lemma samples_grows : grows p_samples g_samples.
Proof.
  intros sa s rest [i si d sd I D] W. rewrite samples_eq. destruct I as [|p l t P G].
  - cbn [app] in *. destruct D as [|q m v Q H].
    + destruct (part_runs (bs "@integer") rest) as (u & r & a & -> & E & _ & K). cbn [app]. rewrite E. cbn [pbind].
      destruct (part_runs (bs "@decimal") r) as (u2 & r2 & b & -> & E2 & _ & K2). rewrite E2. cbn [pbind].
      exists (u ++ u2), r2. eexists. split; [now rewrite app_assoc|]. split; [reflexivity|].
      intros Z. apply app_eq_nil in Z as [Z1 Z2]. now rewrite K, K2.
    + assert (M : p_part (bs "@integer") ((q ++ v) ++ rest) = PO ((q ++ v) ++ rest) None).
      { unfold p_part, popt, preceded. destruct Q as (b1 & b2 & [B1 _] & _ & ->). rewrite <- !app_assoc.
        pose proof (word_miss (bs "@integer") b1 64 (bs "decimal" ++ b2 ++ v ++ rest) B1 eq_refl eq_refl) as X.
        change (64 :: bs "decimal" ++ b2 ++ v ++ rest) with (bs "@decimal" ++ b2 ++ v ++ rest) in X. now rewrite X. }
      rewrite M. cbn [pbind]. rewrite <- app_assoc.
      destruct (part_grows (bs "decimal") q m v rest Q H) as (u & r & m' & -> & E & K).
      { apply whole_app in W; [exact W|]. apply head_nonempty. now apply (sample_list_head m). }
      change (64 :: bs "decimal") with (bs "@decimal") in E. rewrite E. cbn [pbind].
      exists u, r. eexists. split; [reflexivity|]. split; [reflexivity|]. intros Z. now rewrite K.
  - pose proof (head_nonempty t (sample_list_head l t G)) as NT. destruct D as [|q m v Q H].
    + rewrite app_nil_r in *. apply whole_app in W; [|exact NT]. rewrite <- app_assoc.
      destruct (part_grows (bs "integer") p l t rest P G W) as (u & r & l' & -> & E & K).
      change (64 :: bs "integer") with (bs "@integer") in E. rewrite E. cbn [pbind].
      destruct (part_runs (bs "@decimal") r) as (u2 & r2 & b & -> & E2 & _ & K2). rewrite E2. cbn [pbind].
      exists (u ++ u2), r2. eexists. split; [now rewrite app_assoc|]. split; [reflexivity|].
      intros Z. apply app_eq_nil in Z as [Z1 Z2]. now rewrite K, K2.
    + pose proof (head_nonempty v (sample_list_head m v H)) as NV.
      assert (E : p_part (bs "@integer") ((p ++ t) ++ q ++ v ++ rest) = PO (q ++ v ++ rest) (Some l)).
      { apply part_complete; [now exists (bs "integer")|now constructor| |discriminate].
        intros _. now apply (word_fol_slist (bs "decimal")). }
      replace (((p ++ t) ++ q ++ v) ++ rest) with ((p ++ t) ++ q ++ v ++ rest) by now rewrite <- !app_assoc.
      rewrite E. cbn [pbind].
      destruct (part_grows (bs "decimal") q m v rest Q H) as (u & r & m' & -> & E2 & K).
      { rewrite app_assoc in W. now apply whole_app in W. }
      change (64 :: bs "decimal") with (bs "@decimal") in E2. rewrite E2. cbn [pbind].
      exists u, r. eexists. split; [reflexivity|]. split; [reflexivity|]. intros Z. now rewrite K.
Qed.

(** ** No digits are cut in two *)
Lemma decimal_maximal i r d : p_decimal_value i = PO r d -> no_digit r.
Proof.
  unfold p_decimal_value, pmap, pseq, popt, preceded, pbind.
  destruct (p_value i) as [r1 k| |] eqn:V; try discriminate. apply value_maximal in V.
  destruct (tag (bs ".") r1) as [r2 x| |]; [|intros H; injection H as <- _; exact V|discriminate].
  destruct (p_value r2) as [r3 k2| |] eqn:V2; [|intros H; injection H as <- _; exact V|discriminate].
  intros H. injection H as <- _. now apply value_maximal in V2.
Qed.
Lemma sample_range_maximal i r d : p_sample_range i = PO r d -> no_digit r.
Proof.
  unfold p_sample_range. fold p_tilde. unfold pmap, pseq, popt, preceded, pbind.
  destruct (p_decimal_value i) as [r1 k| |] eqn:V; try discriminate. apply decimal_maximal in V.
  destruct (p_tilde r1) as [r2 x| |]; [|intros H; injection H as <- _; exact V|discriminate].
  destruct (p_decimal_value r2) as [r3 k2| |] eqn:V2; [|intros H; injection H as <- _; exact V|discriminate].
  intros H. injection H as <- _. now apply decimal_maximal in V2.
Qed.
Lemma sranges_loop_maximal fuel : forall i acc r l, no_digit i -> sep_loop fuel p_comma p_sample_range i acc = PO r l -> no_digit r.
Proof.
  induction fuel as [|fuel IH]; intros i acc r l N H; [discriminate|]. cbn [sep_loop] in H.
  destruct (p_comma i) as [i1 x| |]; [|injection H as <- _; exact N|discriminate].
  destruct (bytes_eqb i1 i); [discriminate|].
  destruct (p_sample_range i1) as [i2 a| |] eqn:E; [|injection H as <- _; exact N|discriminate].
  destruct (bytes_eqb i2 i); [discriminate|]. apply IH in H; [exact H|]. now apply sample_range_maximal in E.
Qed.
Lemma dots_whole p w r : w = bs "..." \/ w = bs "…" -> whole (p ++ w) r.
Proof.
  intros D x c d y E _ [C _]. unfold digit_char in C. destruct D as [->| ->].
  - change (bs "...") with (bs ".." ++ [46]) in E. rewrite app_assoc in E. apply app_inj_tail in E as [_ <-]. lia.
  - change (bs "…") with ([226; 128] ++ [166]) in E. rewrite app_assoc in E. apply app_inj_tail in E as [_ <-]. lia.
Qed.
Lemma sample_list_tight i r l : p_sample_list i = PO r l -> exists s, i = s ++ r /\ whole s r /\ g_sample_list l s.
Proof.
  intros H. assert (H' := H). apply sample_list_sound in H' as (s & -> & G). exists s. split; [reflexivity|]. split; [|exact G].
  destruct G as [l s G|l s p w G P D]; [|rewrite app_assoc; now apply dots_whole]. apply whole_no_digit.
  unfold p_sample_list in H. fold p_dots p_more in H. unfold pmap, pseq, popt, pbind in H.
  destruct (separated_nonempty_list p_comma p_sample_range (s ++ r)) as [r1 l1| |] eqn:E; try discriminate.
  destruct (p_more r1) as [r2 x| |]; [discriminate| |discriminate]. injection H as -> _.
  unfold separated_nonempty_list in E. destruct (p_sample_range (s ++ r)) as [i1 a| |] eqn:F; try discriminate.
  destruct (bytes_eqb i1 (s ++ r)); [discriminate|]. apply sranges_loop_maximal in E; [exact E|].
  now apply sample_range_maximal in F.
Qed.
Lemma whole_nil t : whole [] t.
Proof. intros x c d y E. destruct x; discriminate. Qed.
Lemma part_tight w i r l : p_part w i = PO r l -> exists s, i = s ++ r /\ whole s r /\ g_part w l s.
Proof.
  unfold p_part, popt, preceded, pbind. destruct (p_word w i) as [r1 x| |] eqn:P.
  - destruct (p_sample_list r1) as [r2 m| |] eqn:E.
    + intros H. injection H as <- <-. apply word_sound in P as (p & -> & P). apply sample_list_tight in E as (s & -> & W & G).
      exists (p ++ s). split; [now rewrite app_assoc|]. split; [|now constructor].
      apply whole_app; [|exact W]. apply head_nonempty. now apply (sample_list_head m).
    + intros H. injection H as <- <-. exists []. split; [reflexivity|]. split; [apply whole_nil|constructor].
    + discriminate.
  - intros H. injection H as <- <-. exists []. split; [reflexivity|]. split; [apply whole_nil|constructor].
  - discriminate.
Qed.
Lemma samples_tight i r sa : p_samples i = PO r sa -> exists s, i = s ++ r /\ whole s r /\ g_samples sa s.
Proof.
  rewrite samples_eq. destruct (p_part (bs "@integer") i) as [r1 a| |] eqn:P; try discriminate. cbn [pbind].
  destruct (p_part (bs "@decimal") r1) as [r2 b| |] eqn:Q; try discriminate. cbn [pbind]. intros H. injection H as <- <-.
  apply part_tight in P as (s & -> & W & G). apply part_tight in Q as (t & -> & W2 & G2).
  exists (s ++ t). split; [now rewrite app_assoc|]. split; [|now constructor].
  destruct t as [|c t]; [now rewrite app_nil_r|]. now apply whole_app.
Qed.

(** ** The sample parser reads the longest list of samples *)
Lemma samples_longest s sa rest : p_samples s = PO rest sa <-> exists t, longest_samples s sa t rest.
Proof.
  split.
  - intros H. assert (H' := H). apply samples_tight in H' as (t & -> & W & G). exists t. repeat split; auto.
    intros sa' t' rest' E W2 G2. destruct (samples_grows sa' t' rest' G2 W2) as (u & r & c2 & -> & F & _).
    rewrite <- E in F. rewrite F in H. injection H as <- <-.
    apply (f_equal (@List.length N)) in E. rewrite !app_length in E. lia.
  - intros (t & -> & W & G & M). destruct (samples_grows sa t rest G W) as (u & r & sa' & -> & F & K). rewrite F.
    destruct u as [|x u]; [now rewrite K|]. exfalso.
    apply samples_tight in F as (s & E & W' & G'). specialize (M sa' s r E W' G').
    apply (f_equal (@List.length N)) in E. rewrite !app_length in E. cbn [List.length] in E. lia.
Qed.

(** ** Failures *)
Lemma no_beginning_fails s : p_condition s = PE <-> ~ no_condition s /\ no_beginning s.
Proof.
  split.
  - intros H. split.
    + intros N. apply condition_empty in N. congruence.
    + intros c t rest -> W G. rewrite (open_condition_runs c t rest G) in H.
      destruct (or_grows c t rest G W) as (u & r & c' & -> & F & _). congruence.
  - intros [N B]. pose proof (condition_total s). destruct (p_condition s) as [rest c| |] eqn:P; [|reflexivity|congruence].
    exfalso. destruct c as [|a c].
    + apply N. apply condition_empty. rewrite P.
      destruct (condition_sound s rest [] P) as [[_ ->]|(x & _ & G)]; [reflexivity|]. now apply sep_list_nonempty in G.
    + destruct (condition_longest_conv s rest (a :: c) P) as (t & E & W & G & _); [easy|]. exact (B _ _ _ E W G).
Qed.
Lemma condition_error s m : parse_plural_condition s = Err m <-> m = "Parser failed"%string /\ ~ no_condition s /\ no_beginning s.
Proof.
  rewrite <- no_beginning_fails. unfold parse_plural_condition. destruct (p_condition s); split; try discriminate.
  - now intros [_ H].
  - intros H. injection H as <-. auto.
  - now intros [-> _].
  - now intros [_ H].
Qed.
Lemma rule_error s m : parse_plural_rule s = Err m <->
  (m = "Parser failed"%string /\ ~ no_condition s /\ no_beginning s) \/
  (exists c t u sa v rest, longest_condition s c t u /\ longest_samples u sa v rest /\ rest <> [] /\
     m = ("Left string: " ++ text_of rest)%string).
Proof.
  rewrite <- no_beginning_fails. unfold parse_plural_rule, p_rule, pmap, pseq, pbind. split.
  - intros H. destruct (p_condition s) as [r c| |] eqn:P; [|injection H as <-; auto|discriminate]. right.
    pose proof (samples_total r). destruct (p_samples r) as [r2 sa| |] eqn:Q; [| |congruence].
    + destruct r2 as [|x r2]; [discriminate|]. destruct c as [|a c].
      { destruct (condition_sound s r [] P) as [[_ ->]|(y & _ & G)]; [discriminate Q|]. now apply sep_list_nonempty in G. }
      destruct (condition_longest_conv s r (a :: c) P) as (t & L); [easy|]. apply samples_longest in Q as (v & V).
      exists (a :: c), t, r, sa, v, (x :: r2). split; [exact L|]. split; [exact V|]. split; [easy|]. now injection H.
    + rewrite samples_eq in Q. destruct (part_runs (bs "@integer") r) as (u1 & r1 & a & _ & E1 & _ & _). rewrite E1 in Q. cbn [pbind] in Q.
      destruct (part_runs (bs "@decimal") r1) as (u2 & r2 & b & _ & E2 & _ & _). rewrite E2 in Q. discriminate Q.
  - intros [[-> ->]|(c & t & u & sa & v & rest & L & V & N & ->)]; [reflexivity|].
    rewrite (condition_longest s u c) by eauto.
    assert (Q : p_samples u = PO rest sa) by (apply samples_longest; eauto). rewrite Q. now destruct rest.
Qed.
(** the message determines the leftover *)
Lemma text_of_bytes s : Forall (fun c => c < 256) s -> bs (text_of s) = s.
Proof.
  intros H. unfold bs, text_of. rewrite list_ascii_of_string_of_list_ascii, map_map.
  induction H as [|c s C H IH]; [reflexivity|]. cbn [List.map]. rewrite IH, N_ascii_embedding by exact C. reflexivity.
Qed.
End Width.
