(** * Rule texts that are only read in part by the generator (C108) *)
From Verif Require Import Base Nom Ast CldrParser LangId GenPr GenRs Json JsonSpec JsonDe MakeRules Grammar ParserFacts ParserComplete ParserProps ParserExact ParserErrors FileSpec MakeFacts MakeProps MakeMore.
Open Scope N_scope.

Section Width.
Context {ptr : ptr_width}.

(** [c] is what [s] is read as: the empty condition if there is none, or its
    longest beginning that is a condition *)
Definition reading (s : bytes) (c : condition) : Prop :=
  (no_condition s /\ c = []) \/ exists t rest, longest_condition s c t rest.
(** inputs that differ in rule texts with the same readings only *)
Definition alike_rule (a b : bytes * bytes) : Prop := fst a = fst b /\ forall c, reading (snd a) c <-> reading (snd b) c.
Definition alike_locale (a b : bytes * bmap bytes) : Prop :=
  fst a = fst b /\ (fst a = bs "root" \/ Forall2 alike_rule (snd a) (snd b)).
Definition alike_data (a b : option rule_map) : Prop :=
  match a, b with Some x, Some y => Forall2 alike_locale x y | None, None => True | _, _ => False end.
Definition alike (a b : supplemental) : Prop :=
  version_of a = version_of b /\ forall t, alike_data (data_of t a) (data_of t b).

Lemma reading_parses s c : parse_plural_condition s = Ok c <-> reading s c.
Proof. apply parse_condition_exact. Qed.
Lemma alike_lang a b : Forall2 alike_rule a b -> gen_lang_rules a = gen_lang_rules b.
Proof.
  induction 1 as [|[n t] [n' t'] a b [N T] F IH]; [reflexivity|]. cbn [fst snd] in *. subst n'. cbn [gen_lang_rules]. rewrite IH.
  destruct (cat_name_of n); cbn [rbind]; [|reflexivity|reflexivity].
  assert (K : match parse_plural_condition t with Ok c => Ok c | Err _ => Panic "Parsing of a condition succeeded" | Panic w => Panic w end =
              match parse_plural_condition t' with Ok c => Ok c | Err _ => Panic "Parsing of a condition succeeded" | Panic w => Panic w end :> res condition).
  { destruct (parse_plural_condition t) as [c|m|w] eqn:P.
    - apply reading_parses, T, reading_parses in P. now rewrite P.
    - destruct (parse_plural_condition t') as [c|m'|w] eqn:P'; [|reflexivity|now apply no_panic in P'].
      apply reading_parses, T, reading_parses in P'. congruence.
    - now apply no_panic in P. }
  now rewrite K.
Qed.
Lemma alike_keys a b : Forall2 alike_locale a b ->
  match parse_keys a, parse_keys b with
  | Ok l, Ok m => Forall2 (fun x y => fst x = fst y /\ Forall2 alike_rule (snd x) (snd y)) l m
  | Panic v, Panic w => v = w
  | _, _ => False
  end.
Proof.
  induction 1 as [|[k v] [k' v'] a b [K V] F IH]; cbn [parse_keys]; [constructor|]. cbn [fst snd] in *. subst k'.
  destruct (bytes_eqb k (bs "root")) eqn:R; [exact IH|]. destruct V as [->|V]; [discriminate R|].
  destruct (langid_from_str k); cbn [unwrap rbind]; [|reflexivity].
  destruct (parse_keys a), (parse_keys b); try easy. cbn [rbind]. constructor; auto.
Qed.
Lemma alike_type srt a b : uniform srt -> Forall2 alike_locale a b -> gen_type_rs srt a = gen_type_rs srt b.
Proof.
  intros U F. apply alike_keys in F. unfold gen_type_rs. destruct (parse_keys a), (parse_keys b); try easy; [|now subst].
  cbn [rbind]. apply (@zip_sorted (bmap bytes) srt (Forall2 alike_rule)) in F; [|auto]. revert F.
  generalize (srt (bmap bytes) a0) (srt (bmap bytes) a1). clear. intros L M F. induction F as [|[k r] [k' r'] L M [K R] F IH]; [reflexivity|]. cbn [fst snd] in *. subst k'.
  cbn [map_res]. rewrite IH, (alike_lang _ _ R). reflexivity.
Qed.
Lemma alike_part srt cur a b : uniform srt -> alike_data a b -> gen_part srt cur a = gen_part srt cur b.
Proof.
  intros U S. destruct a as [a|], b as [b|]; try easy. cbn [alike_data] in S. unfold gen_part. now rewrite (alike_type srt a b U S).
Qed.
Lemma alike_step srt st a b : uniform srt -> alike a b -> gen_step srt st a = gen_step srt st b.
Proof.
  intros U (V & D). pose proof (D CARDINAL) as C. pose proof (D ORDINAL) as O. cbn [data_of] in C, O.
  unfold gen_step. change (ve_cldr_version (su_version a)) with (version_of a). rewrite V.
  fold (version_of b). destruct (match g_version st with Some _ => _ | None => _ end); cbn [rbind]; try reflexivity.
  rewrite (alike_part srt _ _ _ U C). destruct (gen_part srt (g_cardinal st) (su_cardinal b)); cbn [rbind]; try reflexivity.
  now rewrite (alike_part srt _ _ _ U O).
Qed.
Lemma C108_alike srt jsons jsons' rs rs' : uniform srt -> inputs_are jsons rs -> inputs_are jsons' rs' ->
  Forall2 alike rs rs' -> generate_rs srt jsons = generate_rs srt jsons'.
Proof.
  intros U I I' F. unfold generate_rs, generate_tokens. f_equal.
  assert (K : forall st, gen_loop srt st jsons = gen_loop srt st jsons'); [|now rewrite K].
  revert jsons jsons' I I'. induction F as [|a b rs rs' S F IH]; intros jsons jsons' I I' st; inversion I as [|j ? js ? J1 J2]; subst; inversion I' as [|j' ? js' ? J1' J2']; subst; [reflexivity|].
  apply resource_text_iff in J1, J1'. cbn [gen_loop]. rewrite J1, J1'. cbn [unwrap rbind]. rewrite (alike_step srt st a b U S). destruct (gen_step srt st b); cbn [rbind]; auto.
Qed.

(** ** What is not read *)
(** text that starts with neither an operand nor a blank *)
Definition foreign (s : bytes) : Prop := forall x r, s = x :: r -> ~ In x (bs "nivwft") /\ x <> 32 /\ x <> 9.
Lemma foreign_blank s : foreign s -> no_blank s.
Proof.
  intros F x r ->. destruct (F x r eq_refl) as (_ & A & B). unfold is_space. apply N.eqb_neq in A, B. now rewrite A, B.
Qed.
Lemma foreign_operand s : foreign s -> p_operand s = PE.
Proof.
  intros F. unfold p_operand, one_of. destruct s as [|x r]; [reflexivity|]. destruct (F x r eq_refl) as (A & _).
  destruct (existsb (fun y => y =? x) (bs "nivwft")) eqn:E; [|reflexivity].
  apply existsb_exists in E as (y & I & E). apply N.eqb_eq in E. now subst.
Qed.
Lemma foreign_relation s : foreign s -> p_relation s = PE.
Proof.
  intros F. unfold p_relation, p_expression, pmap, pseq, pbind. now rewrite (foreign_operand s F).
Qed.
Lemma foreign_and s : foreign s -> p_and_condition s = PE.
Proof. intros F. unfold p_and_condition, separated_nonempty_list. now rewrite (foreign_relation s F). Qed.
Definition and_stops := stops (p_word (bs "and")) p_relation.
Definition or_stops := stops (p_word (bs "or")) p_and_condition.
Lemma and_complete_stops a s rest : g_and true a s -> fol_list rest -> and_stops rest -> p_and_condition (s ++ rest) = PO rest a.
Proof.
  intros G F C. unfold p_and_condition.
  apply (separated_complete (p_word (bs "and")) p_relation (word (bs "and")) (g_relation true) fol_list); auto.
  - intros q r t u Q I. apply word_complete; [auto|now apply no_blank_cons|easy|].
    apply letter_head_blank. now apply (relation_head true r).
  - intros r t u I K. now apply relation_complete.
  - intros r t I. apply letter_head_nonempty. now apply (relation_head true r).
  - intros q r t u Q I. now apply (word_fol (bs "and") 97 (bs "nd")).
  - apply word_nonempty.
Qed.
Lemma or_complete_stops c s rest : g_condition true c s -> fol_list rest -> and_stops rest -> or_stops rest ->
  separated_nonempty_list (p_word (bs "or")) p_and_condition (s ++ rest) = PO rest c.
Proof.
  intros G F A C.
  apply (separated_complete (p_word (bs "or")) p_and_condition (word (bs "or")) (g_and true) (fun r => fol_list r /\ and_stops r)); auto.
  - intros q r t u Q I. apply word_complete; [auto|now apply no_blank_cons|easy|].
    apply letter_head_blank. now apply (and_head true r).
  - intros r t u I [K L]. now apply and_complete_stops.
  - intros r t I. apply letter_head_nonempty. now apply (and_head true r).
  - intros q r t u Q I. split; [now apply (word_fol (bs "or") 111 (bs "r"))|]. left.
    destruct Q as (b1 & b2 & [B1 _] & _ & ->). rewrite <- !app_assoc. apply word_miss; auto.
  - apply word_nonempty.
Qed.
Lemma and_tail_stops p rest : word (bs "and") p -> foreign rest -> and_stops (p ++ rest) /\ or_stops (p ++ rest).
Proof.
  intros W F. split.
  - right. destruct (word_complete (bs "and") p rest [] W) as (x & P); [now apply no_blank_cons|easy|rewrite app_nil_r; now apply foreign_blank|].
    rewrite !app_nil_r in P. exists rest, x. split; [exact P|]. split; [|now apply foreign_relation].
    apply app_neq. now apply (word_nonempty (bs "and")).
  - left. destruct W as (b1 & b2 & [B1 _] & _ & ->). rewrite <- !app_assoc. apply word_miss; auto.
Qed.
Lemma or_tail_stops p rest : word (bs "or") p -> foreign rest -> and_stops (p ++ rest) /\ or_stops (p ++ rest).
Proof.
  intros W F. split.
  - left. destruct W as (b1 & b2 & [B1 _] & _ & ->). rewrite <- !app_assoc. apply word_miss; auto.
  - right. destruct (word_complete (bs "or") p rest [] W) as (x & P); [now apply no_blank_cons|easy|rewrite app_nil_r; now apply foreign_blank|].
    rewrite !app_nil_r in P. exists rest, x. split; [exact P|]. split; [|now apply foreign_and].
    apply app_neq. now apply (word_nonempty (bs "or")).
Qed.
Lemma condition_before c s rest : g_condition true c s -> fol_list rest -> and_stops rest -> or_stops rest ->
  longest_condition (s ++ rest) c s rest.
Proof.
  intros G F A O. destruct (condition_longest_conv (s ++ rest) rest c) as (t & L).
  - rewrite (open_condition_runs c s rest (condition_open c s G)). now apply or_complete_stops.
  - now apply (sep_list_nonempty _ _ _ _ G).
  - assert (E := proj1 L). apply app_inv_tail in E. now subst t.
Qed.
Lemma C108_tail c s w p rest : g_condition true c s -> w = bs "and" \/ w = bs "or" -> word w p -> foreign rest ->
  longest_condition (s ++ p ++ rest) c s (p ++ rest) /\ reading s c.
Proof.
  intros G W P F. split.
  - destruct W as [->| ->].
    + destruct (and_tail_stops p rest P F). apply condition_before; auto. now apply (word_fol (bs "and") 97 (bs "nd")).
    + destruct (or_tail_stops p rest P F). apply condition_before; auto. now apply (word_fol (bs "or") 111 (bs "r")).
  - right. exists s, []. rewrite <- (app_nil_r s) at 1. apply condition_before; auto.
    + split; [intros x r H; discriminate|reflexivity].
    + left. reflexivity.
    + left. reflexivity.
Qed.
Lemma reading_fun s c c' : reading s c -> reading s c' -> c = c'.
Proof. intros A B. apply reading_parses in A, B. congruence. Qed.
Lemma C108_tail_alike c s w p rest : g_condition true c s -> w = bs "and" \/ w = bs "or" -> word w p -> foreign rest ->
  forall c', reading (s ++ p ++ rest) c' <-> reading s c'.
Proof.
  intros G W P F. destruct (C108_tail c s w p rest G W P F) as [L R].
  assert (R' : reading (s ++ p ++ rest) c) by (right; eauto).
  intros c'. split; intros H.
  - now rewrite (reading_fun _ _ _ H R').
  - now rewrite (reading_fun _ _ _ H R).
Qed.

(** ** A text that starts with something else *)
Lemma foreign_no_beginning x r : ~ In x (bs "nivwft") -> no_beginning (x :: r).
Proof.
  intros N c t rest E W G. destruct (open_condition_head c t G) as (o & u & ->).
  apply N. destruct o; cbn in E; injection E as -> _; cbn; auto 7.
Qed.
Lemma C108_panics srt jsons rs r t d key rules name text : sorts srt -> inputs_are jsons rs -> In r rs -> data_of t r = Some d ->
  In (key, rules) d -> key <> bs "root" -> In (name, text) rules -> ~ no_condition text -> no_beginning text ->
  exists w, generate_rs srt jsons = Panic w.
Proof.
  intros S I R D K N T NC NB. destruct (generate_rs srt jsons) as [out|e|w] eqn:G.
  - exfalso. destruct (proj1 (C64_lemma srt jsons S) (ex_intro _ out G)) as (l' & J' & A).
    rewrite <- (inputs_unique _ _ _ I J') in A. destruct (ac_data _ A r t d R D key rules K N) as [_ F].
    rewrite Forall_forall in F. destruct (F _ T) as (part & co & c & _ & _ & P & _). cbn [snd] in P.
    apply reading_parses in P as [[P _]|(u & rest & E & W & G' & _)]; [easy|]. exact (NB _ _ _ E W G').
  - exfalso. exact (generate_no_err srt jsons e G).
  - now exists w.
Qed.
End Width.
