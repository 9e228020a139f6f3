(** * Printing a syntax tree gives a text of the grammar; digit runs of a text *)
From Coq Require Import Lia.
From Verif Require Import Base Nom Ast CldrParser Spec DigitFacts Grammar ParserFacts ParserComplete ParserProps.
Open Scope N_scope.

Section Width.
Context {ptr : ptr_width}.

Lemma blanks_one : blanks (bs " ").
Proof. repeat constructor. Qed.
Lemma blanks1_one : blanks1 (bs " ").
Proof. split; [exact blanks_one|discriminate]. Qed.
Lemma value_print k : value_fits k -> g_value k (dec_of_N k).
Proof. intros F. destruct (dec_of_N_spec k) as (D & V & N & _). unfold g_value. now rewrite V. Qed.

Lemma join_sep {A} (sep : bytes -> Prop) (g : A -> bytes -> Prop) p (f : A -> bytes) l :
  sep p -> l <> [] -> (forall a, In a l -> g a (f a)) -> sep_list sep g l (join p (List.map f l)).
Proof.
  intros S N H. induction l as [|a l IH]; [easy|]. cbn [List.map join].
  destruct l as [|b l]; [constructor; apply H; now left|].
  cbn [List.map] in *. apply sep_cons; [apply H; now left|auto|]. apply IH; [discriminate|].
  intros x I. apply H. now right.
Qed.
Lemma item_print it : item_fits it -> g_item it (print_item it).
Proof.
  destruct it as [[lo up]|k]; cbn [item_fits print_item lower_val upper_val].
  - intros [A B]. constructor; now apply value_print.
  - intros A. constructor. now apply value_print.
Qed.
Lemma word_one w : word w (bs " " ++ w ++ bs " ").
Proof. exists (bs " "), (bs " "). repeat split; auto using blanks_one; discriminate. Qed.
Lemma relation_print r : relation_fits r -> rel_list r <> [] -> g_relation true r (print_relation r).
Proof.
  destruct r as [e o l]. intros [M F] N. cbn [rel_expr rel_list rel_op] in *. unfold print_relation.
  cbn [rel_expr rel_list rel_op]. apply gr; auto using blanks_one.
  - destruct e as [x [m|]]; unfold print_expr; cbn [ex_operand ex_modulus] in *.
    + apply (ge_mod x (bs " ") (bs "%") (bs " ")); auto using blanks_one, blanks1_one, value_print.
    + rewrite app_nil_r. constructor.
  - destruct o; try constructor.
    + apply (go_notin (bs " ")), blanks1_one.
    + apply (go_notwithin (bs " ")), blanks1_one.
    + apply (go_isnot (bs " ")), blanks1_one.
  - discriminate.
  - left. apply join_sep; auto.
    + exists [], []. repeat split; constructor.
    + intros it I. rewrite Forall_forall in F. apply item_print. auto.
Qed.
Lemma condition_print c : printable_condition c -> g_condition true c (print_condition c).
Proof.
  intros (N & NA & NL & F). unfold lists_nonempty, condition_fits in *. rewrite Forall_forall in *.
  apply (join_sep (word (bs "or")) _ (bs " or ")); [exact (word_one (bs "or"))|auto|].
  intros a I. specialize (NA a I). specialize (NL a I). specialize (F a I). rewrite Forall_forall in *.
  apply (join_sep (word (bs "and")) _ (bs " and ")); [exact (word_one (bs "and"))|auto|].
  intros r J. apply relation_print; auto.
Qed.
Lemma decimal_print d : decimal_fits d -> g_decimal d (print_decimal d).
Proof.
  destruct d as [i [f|]]; unfold decimal_fits, print_decimal; cbn [dv_integer dv_decimal]; intros [A B].
  - constructor; now apply value_print.
  - rewrite app_nil_r. constructor. now apply value_print.
Qed.
Lemma sample_range_print d : srange_fits d -> g_sample_range d (print_sample_range d).
Proof.
  destruct d as [i [f|]]; unfold srange_fits, print_sample_range; cbn [sr_lower sr_upper]; intros [A B].
  - apply (gs_two i (print_decimal i) [] []); try constructor; now apply decimal_print.
  - rewrite app_nil_r. constructor. now apply decimal_print.
Qed.
Lemma sample_list_print l : sl_ranges l <> [] -> slist_fits l -> g_sample_list l (print_sample_list l).
Proof.
  destruct l as [l e]. unfold slist_fits, print_sample_list. cbn [sl_ranges sl_ellipsis]. intros N F.
  assert (C : forall w, w = bs ", " -> comma w).
  { intros w ->. exists [], (bs " "). repeat split; auto using blanks_one; constructor. }
  assert (G : sep_list comma g_sample_range l (join (bs ", ") (List.map print_sample_range l))).
  { apply join_sep; auto. intros r I. rewrite Forall_forall in F. now apply sample_range_print, F. }
  destruct e.
  - apply (gl_open l _ (bs ", ") (bs "…")); auto.
  - rewrite app_nil_r. now constructor.
Qed.
Lemma part_print w l : printable_part l -> g_part w l (print_part w l).
Proof.
  destruct l as [l|]; cbn [printable_part print_part]; [|constructor]. intros [N F].
  replace (bs " " ++ w ++ bs " " ++ print_sample_list l) with ((bs " " ++ w ++ bs " ") ++ print_sample_list l)
    by now rewrite <- !app_assoc.
  constructor; [apply word_one|now apply sample_list_print].
Qed.
Lemma rule_print r : printable r -> g_rule true r (print_rule r).
Proof.
  destruct r as [c sa]. intros [C S]. unfold print_rule. cbn [ru_condition ru_samples] in *.
  constructor; [now apply condition_print|].
  destruct sa as [[i d]|]; cbn [printable_samples sa_integer sa_decimal] in *.
  - destruct S as (NE & I & D).
    replace (Some (mkSamples i d)) with (make_samples i d).
    + constructor; now apply part_print.
    + destruct i, d; try reflexivity. now destruct NE.
  - apply (gsa None [] None []); constructor.
Qed.

(** ** Digit runs *)
Lemma prefix_split {A} (a b c d : list A) : a ++ b = c ++ d ->
  (exists m, c = a ++ m /\ b = m ++ d) \/ (exists m, a = c ++ m /\ d = m ++ b).
Proof.
  revert c. induction a as [|x a IH]; intros c E.
  - left. exists c. auto.
  - destruct c as [|y c].
    + right. exists (x :: a). auto.
    + cbn in E. injection E as -> E. destruct (IH c E) as [(m & -> & ->)|(m & -> & ->)]; [left|right]; exists m; auto.
Qed.
Definition dfree (w : bytes) : Prop := Forall (fun c => ~ digit_char c) w.
Lemma numbers_fit_sub a s b : numbers_fit (a ++ s ++ b) -> numbers_fit s.
Proof. intros H x ds y -> D. apply (H (a ++ x) ds (y ++ b)); [now rewrite <- !app_assoc|auto]. Qed.
Lemma numbers_fit_char s c t : numbers_fit s -> ~ digit_char c -> numbers_fit t -> numbers_fit (s ++ c :: t).
Proof.
  intros S C T a ds b E D. apply prefix_split in E as [(m & -> & E)|(m & -> & E)].
  - (* s is a prefix of a *)
    destruct m as [|x m].
    + destruct ds as [|y ds]; [exact usize_limit_pos|]. cbn in E. injection E as -> _.
      apply digits_cons in D. tauto.
    + cbn in E. injection E as -> ->. exact (T m ds b eq_refl D).
  - apply prefix_split in E as [(k & -> & E)|(k & -> & E)].
    + exact (S a ds k eq_refl D).
    + destruct k as [|x k]; [rewrite app_nil_r in *; apply (S a m []); [now rewrite app_nil_r|auto]|].
      cbn in E. injection E as <- _. apply digits_app in D as [_ D]. apply digits_cons in D. tauto.
Qed.
Lemma numbers_fit_nil : numbers_fit [].
Proof. intros a ds b E D. destruct a; [|discriminate]. destruct ds; [|discriminate]. exact usize_limit_pos. Qed.
Lemma numbers_fit_dfree w : dfree w -> numbers_fit w.
Proof. induction 1; [exact numbers_fit_nil|]. now apply (numbers_fit_char [] x l numbers_fit_nil). Qed.
Lemma numbers_fit_glue s w t : numbers_fit s -> dfree w -> w <> [] -> numbers_fit t -> numbers_fit (s ++ w ++ t).
Proof.
  intros S W N T. revert s S. induction W as [|c w C W IH]; intros s S; [easy|]. cbn [app].
  apply numbers_fit_char; auto. destruct w as [|d w]; [exact T|]. apply (IH ltac:(discriminate) [] numbers_fit_nil).
Qed.
Lemma numbers_fit_lead w t : dfree w -> w <> [] -> numbers_fit t -> numbers_fit (w ++ t).
Proof. intros. apply (numbers_fit_glue []); auto using numbers_fit_nil. Qed.
Lemma dval_mono a ds b : digits (a ++ ds ++ b) -> dval ds <= dval (a ++ ds ++ b).
Proof.
  intros _. rewrite !dval_app. pose proof (N.pow_nonzero 10 (N.of_nat (List.length b)) ltac:(discriminate)). nia.
Qed.
Lemma value_runs k s : g_value k s -> numbers_fit s.
Proof. intros (D & _ & -> & B) a ds b -> _. pose proof (dval_mono a ds b D). lia. Qed.

Lemma dfree_app a b : dfree a -> dfree b -> dfree (a ++ b).
Proof. intros A B. apply Forall_app. auto. Qed.
Lemma blanks_dfree b : blanks b -> dfree b.
Proof. intros B. eapply Forall_impl; [|exact B]. intros c [-> | ->]; unfold digit_char; lia. Qed.
Ltac dfree_text := repeat (constructor; [unfold digit_char; cbn; lia|]); constructor.
Lemma comma_dfree p : comma p -> dfree p /\ p <> [].
Proof.
  intros (b1 & b2 & B1 & B2 & ->). split; [|now destruct b1].
  apply dfree_app; [now apply blanks_dfree|]. apply dfree_app; [dfree_text|now apply blanks_dfree].
Qed.
Lemma word_dfree w p : dfree w -> word w p -> dfree p /\ p <> [].
Proof.
  intros W (b1 & b2 & [B1 N1] & [B2 N2] & ->). split; [|now destruct b1].
  apply dfree_app; [now apply blanks_dfree|]. apply dfree_app; [auto|now apply blanks_dfree].
Qed.
Lemma sep_runs {A} (sep : bytes -> Prop) (g : A -> bytes -> Prop) l s :
  (forall p, sep p -> dfree p /\ p <> []) -> (forall a t, g a t -> numbers_fit t) -> sep_list sep g l s -> numbers_fit s.
Proof.
  intros P G. induction 1 as [a s H|a s p l t H S L IH]; [eauto|].
  destruct (P p S). apply numbers_fit_glue; eauto.
Qed.
Lemma item_runs it s : g_item it s -> numbers_fit s.
Proof.
  intros [k t V|lo up t u V1 V2]; [now apply value_runs in V|].
  apply numbers_fit_glue; [now apply value_runs in V1|dfree_text|discriminate|now apply value_runs in V2].
Qed.
Lemma operand_dfree o : dfree (operand_text o).
Proof. destruct o; dfree_text. Qed.
Lemma expr_runs e s : g_expr e s -> numbers_fit s.
Proof.
  intros [o|o b1 w b2 k t B1 W [B2 _] V]; [apply numbers_fit_dfree, operand_dfree|].
  replace (operand_text o ++ b1 ++ w ++ b2 ++ t) with ((operand_text o ++ b1 ++ w ++ b2) ++ t) by now rewrite <- !app_assoc.
  apply numbers_fit_lead; [|now destruct o|now apply value_runs in V].
  apply dfree_app; [apply operand_dfree|]. apply dfree_app; [now apply blanks_dfree|].
  apply dfree_app; [destruct W as [-> | ->]; dfree_text|now apply blanks_dfree].
Qed.
Lemma op_dfree o s : g_op o s -> dfree s /\ s <> [].
Proof.
  intros [| | |b [B N]| |b [B N]| |b [B N]]; (split; [|discriminate]); try dfree_text;
    (apply dfree_app; [dfree_text|]; apply dfree_app; [now apply blanks_dfree|dfree_text]).
Qed.
Lemma relation_runs b r s : g_relation b r s -> numbers_fit s.
Proof.
  intros [e es b1 o os b2 l ls E B1 O B2 _ L]. apply op_dfree in O as [O N].
  replace (es ++ b1 ++ os ++ b2 ++ ls) with (es ++ (b1 ++ os ++ b2) ++ ls) by now rewrite <- !app_assoc.
  apply numbers_fit_glue; [now apply expr_runs in E| | |].
  - apply dfree_app; [now apply blanks_dfree|]. apply dfree_app; [auto|now apply blanks_dfree].
  - destruct b1; [destruct os; [easy|discriminate]|discriminate].
  - destruct L as [L|(_ & _ & ->)]; [|exact numbers_fit_nil]. apply sep_runs in L; eauto using comma_dfree, item_runs.
Qed.
Lemma condition_runs b c s : g_condition b c s -> numbers_fit s.
Proof.
  intros G. apply sep_runs in G; auto.
  - intros p. apply word_dfree. dfree_text.
  - intros a t A. apply sep_runs in A; eauto using relation_runs. intros p. apply word_dfree. dfree_text.
Qed.
Lemma decimal_runs d s : g_decimal d s -> numbers_fit s.
Proof.
  intros [k t V|k t f u V1 V2]; [now apply value_runs in V|].
  apply numbers_fit_glue; [now apply value_runs in V1|dfree_text|discriminate|now apply value_runs in V2].
Qed.
Lemma srange_runs d s : g_sample_range d s -> numbers_fit s.
Proof.
  intros [x t D|x t b1 b2 y u D1 B1 B2 D2]; [now apply decimal_runs in D|].
  replace (t ++ b1 ++ bs "~" ++ b2 ++ u) with (t ++ (b1 ++ bs "~" ++ b2) ++ u) by now rewrite <- !app_assoc.
  apply numbers_fit_glue; [now apply decimal_runs in D1| |now destruct b1|now apply decimal_runs in D2].
  apply dfree_app; [now apply blanks_dfree|]. apply dfree_app; [dfree_text|now apply blanks_dfree].
Qed.
Lemma slist_runs d s : g_sample_list d s -> numbers_fit s.
Proof.
  intros [l t G|l t p w G P W]; apply sep_runs in G; eauto using comma_dfree, srange_runs.
  apply comma_dfree in P as [P N]. apply numbers_fit_glue; auto. apply numbers_fit_dfree.
  destruct W as [-> | ->]; dfree_text.
Qed.
Lemma part_runs w l s t : dfree w -> g_part w l s -> numbers_fit t -> (t = [] \/ exists c r, t = c :: r /\ ~ digit_char c) ->
  numbers_fit (s ++ t) /\ (s ++ t = [] \/ exists c r, s ++ t = c :: r /\ ~ digit_char c).
Proof.
  intros W [|p l' u P G] T H; [auto|]. apply word_dfree in P as [P N]; auto. apply slist_runs in G.
  assert (X : numbers_fit (p ++ u)) by now apply numbers_fit_lead. split.
  - destruct H as [->|(c & r & -> & C)]; [now rewrite app_nil_r|]. apply numbers_fit_char; auto.
    apply (numbers_fit_sub [c] r []). now rewrite app_nil_r.
  - right. destruct P; [easy|]. cbn. eauto.
Qed.
Lemma rule_runs b r s : g_rule b r s -> numbers_fit s.
Proof.
  intros [c sc sa ss G [i si d sd I D]]. apply condition_runs in G.
  destruct (part_runs (bs "@decimal") _ _ [] ltac:(dfree_text) D numbers_fit_nil (or_introl eq_refl)) as [A B].
  rewrite app_nil_r in *.
  destruct (part_runs (bs "@integer") _ _ sd ltac:(dfree_text) I A B) as [A' [E|(x & t & E & X)]].
  - rewrite E, app_nil_r. auto.
  - rewrite E in *. apply numbers_fit_char; auto. apply (numbers_fit_sub [x] t []). now rewrite app_nil_r.
Qed.
Lemma numbers_fit_rule s r : parse_plural_rule s = Ok r -> ~ no_condition s -> numbers_fit s.
Proof. intros H N. apply rule_sound in H as [[H _]|[_ H]]; [contradiction|now apply rule_runs in H]. Qed.

(** ** C43 *)
Definition sample_rule (i f : bytes) : bytes := bs "n = 1 @decimal " ++ i ++ bs "." ++ f.
Lemma sample_rule_parse i f : sample_numeral i f ->
  parse_plural_rule (sample_rule i f) =
  Ok (mkRule [[mkRel (mkExpr ON None) OpEQ [RValue 1]]]
        (Some (mkSamples None (Some (mkSL [mkSR (mkDec (dval i) (Some (dval f))) None] false))))).
Proof.
  intros (DI & DF & NI & NF & BI & BF). apply rule_complete.
  apply (gru true _ (bs "n = 1") _ (bs " @decimal " ++ i ++ bs "." ++ f)).
  - change (bs "n = 1") with (print_condition [[mkRel (mkExpr ON None) OpEQ [RValue 1]]]). apply condition_print.
    assert (1 < usize_limit) by (unfold usize_limit; now destruct ptr).
    repeat split; repeat constructor; try discriminate; assumption.
  - apply (gsa None [] (Some (mkSL [mkSR (mkDec (dval i) (Some (dval f))) None] false))); [constructor|].
    apply (gp_some _ (bs " @decimal ")); [exact (word_one (bs "@decimal"))|].
    repeat constructor; auto.
Qed.
Lemma dval_canonical s t : digits s -> digits t -> s <> [] -> t <> [] -> no_leading_zero s -> no_leading_zero t ->
  dval s = dval t -> s = t.
Proof.
  assert (L : forall s, digits s -> s <> [] -> no_leading_zero s -> s = [48] \/ 10 ^ (N.of_nat (List.length s) - 1) <= dval s).
  { intros u D N [->|H]; [now left|right]. destruct u as [|c u]; [easy|]. cbn [hd] in H. apply digits_cons in D as [C D].
    cbn [dval List.length]. replace (N.of_nat (S (List.length u)) - 1) with (N.of_nat (List.length u)) by lia.
    unfold digit_char in C. pose proof (N.pow_nonzero 10 (N.of_nat (List.length u)) ltac:(discriminate)). nia. }
  assert (I : forall s t, digits s -> digits t -> List.length s = List.length t -> dval s = dval t -> s = t).
  { clear. intros s. induction s as [|c s IH]; intros [|d t] D1 D2 E V; try discriminate; auto.
    apply digits_cons in D1 as [C1 D1]. apply digits_cons in D2 as [C2 D2]. injection E as E. cbn [dval] in V.
    rewrite E in V. pose proof (dval_lt s D1). pose proof (dval_lt t D2). rewrite E in *. unfold digit_char in *.
    assert (c = d) by nia. subst d. f_equal. apply IH; auto. nia. }
  intros D1 D2 N1 N2 Z1 Z2 V. apply I; auto.
  pose proof (dval_lt s D1). pose proof (dval_lt t D2).
  assert (P : forall u, digits u -> u <> [] -> dval u = 0 -> no_leading_zero u -> u = [48]).
  { intros u D N E Z. destruct (L u D N Z) as [?|K]; auto. pose proof (N.pow_nonzero 10 (N.of_nat (List.length u) - 1) ltac:(discriminate)). lia. }
  destruct (L s D1 N1 Z1) as [->|L1]; [symmetry in V; now rewrite (P t D2 N2 V Z2)|].
  destruct (L t D2 N2 Z2) as [->|L2]; [now rewrite (P s D1 N1 V Z1)|].
  assert (10 ^ (N.of_nat (List.length s) - 1) < 10 ^ N.of_nat (List.length t)) as X1 by lia.
  assert (10 ^ (N.of_nat (List.length t) - 1) < 10 ^ N.of_nat (List.length s)) as X2 by lia.
  apply N.pow_lt_mono_r_iff in X1, X2; lia.
Qed.
Lemma faithful_samples i f j g : sample_numeral i f -> sample_numeral j g ->
  (parse_plural_rule (sample_rule i f) = parse_plural_rule (sample_rule j g) <-> dval i = dval j /\ dval f = dval g).
Proof.
  intros A B. rewrite !sample_rule_parse by auto. split.
  - intros H. injection H as -> ->. auto.
  - now intros [-> ->].
Qed.
Lemma canonical_samples i f j g : sample_numeral i f -> sample_numeral j g ->
  no_leading_zero i -> no_leading_zero f -> no_leading_zero j -> no_leading_zero g ->
  parse_plural_rule (sample_rule i f) = parse_plural_rule (sample_rule j g) -> i = j /\ f = g.
Proof.
  intros A B Z1 Z2 Z3 Z4 E. apply faithful_samples in E as [E1 E2]; auto. destruct A as (?&?&?&?&_), B as (?&?&?&?&_).
  split; now apply dval_canonical.
Qed.
(** ** C42 *)
Lemma blanks_white b : blanks b -> white b.
Proof.
  induction 1 as [|c b [-> | ->] B IH]; [constructor| |]; [apply (white_cons [32])|apply (white_cons [9])]; auto;
    apply white_char_iff; unfold ws_list; cbn [In]; tauto.
Qed.
Lemma samples_no_condition sa s : g_samples sa s -> no_condition s.
Proof.
  intros [i si d sd I D]. destruct I as [|p l u (b1 & b2 & [B1 _] & _ & ->) _].
  - destruct D as [|p l u (b1 & b2 & [B1 _] & _ & ->) _]; [left; constructor|].
    right. exists b1. eexists. split; [now apply blanks_white|]. cbn [app]. rewrite <- !app_assoc. reflexivity.
  - right. exists b1. eexists. split; [now apply blanks_white|]. cbn [app]. rewrite <- !app_assoc. reflexivity.
Qed.
Lemma no_condition_rule s : no_condition s <-> parse_plural_rule s = Ok (mkRule [] None).
Proof.
  split.
  - intros N. unfold parse_plural_rule, p_rule, pmap, pseq, pbind. apply condition_empty in N. now rewrite N.
  - intros H. apply rule_sound in H as [[H _]|[_ H]]; [auto|]. inversion H as [c sc sa ss G S E1 E2]. subst.
    now apply sep_list_nonempty in G.
Qed.
Lemma no_condition_condition s : no_condition s <-> parse_plural_condition s = Ok [].
Proof.
  split.
  - intros N. unfold parse_plural_condition. apply condition_empty in N. now rewrite N.
  - intros H. apply condition_accepts in H as [[H _]|(_ & t & r & -> & G)]; [auto|].
    now apply sep_list_nonempty in G.
Qed.
Lemma empty_rule s r : parse_plural_rule s = Ok r -> (ru_condition r = [] <-> no_condition s).
Proof.
  intros H. pose proof (rule_condition s r H) as C. rewrite no_condition_condition, C. split; [now intros ->|]. intros E. now injection E.
Qed.
Lemma rule_exact s r : ru_condition r <> [] -> lists_nonempty (ru_condition r) ->
  (parse_plural_rule s = Ok r <-> g_rule true r s).
Proof.
  intros N L. split; [|apply rule_complete]. intros H. apply rule_sound in H as [[_ ->]|[_ H]]; [easy|].
  destruct H as [c sc sa ss G S]. constructor; auto. now apply strict_condition.
Qed.
Lemma condition_prefix s c : parse_plural_condition s = Ok c -> c <> [] ->
  exists t rest, s = t ++ rest /\ g_condition false c t /\ (lists_nonempty c -> g_condition true c t).
Proof.
  intros H N. apply condition_accepts in H as [[_ ->]|(_ & t & rest & -> & G)]; [easy|].
  exists t, rest. repeat split; auto. intros L. now apply strict_condition.
Qed.

(** for examples *)
Definition valueb (k : value) (s : bytes) : bool :=
  forallb is_digit s && negb (bytes_eqb s []) && (dval s =? k) && (k <? usize_limit).
Lemma value_by k s : valueb k s = true -> g_value k s.
Proof.
  unfold valueb. rewrite !Bool.andb_true_iff, Bool.negb_true_iff, bytes_eqb_neq, N.eqb_eq, N.ltb_lt, digits_forallb.
  intros [[[A B] <-] C]. now split.
Qed.
Lemma print_rule_inj r r' : printable r -> printable r' -> print_rule r = print_rule r' -> r = r'.
Proof.
  intros P P' E. apply rule_print, rule_complete in P. apply rule_print, rule_complete in P'.
  rewrite E, P' in P. now injection P.
Qed.
End Width.
