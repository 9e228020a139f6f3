(** * C112: a failed run reports the first fault of its input *)
From Coq Require Import Lia Sorting.Permutation.
From Verif Require Import Base Ast CldrParser DigitFacts LangId LangIdFacts LangOrder LangGram Tokens GenPr GenRs Json JsonSpec JsonDe LangSpec Grammar MakeRules RustExpr Spec
  FileSpec CodeSpec CodeProps ParserProps ParserErrors ParserExact MakeFacts MakeTable MakeBody MakeProps MakeMore Truncate FaultSpec.
Open Scope N_scope.

Section Width.
Context {ptr : ptr_width}.

Lemma rbind_panic {A B} (x : res A) (f : A -> res B) w : rbind x f = Panic w -> x = Panic w \/ exists a, x = Ok a /\ f a = Panic w.
Proof. destruct x as [a|e|v]; cbn; intros H; [right; now exists a|discriminate|left; now injection H as ->]. Qed.
Lemma unwrap_panic {A} m (o : option A) w : unwrap m o = Panic w -> o = None /\ w = m.
Proof. destruct o; cbn; [discriminate|]. intros H. injection H as <-. auto. Qed.

(** ** One rule *)
Lemma pr_panic c w : gen_pr c = Panic w -> w = "index out of bounds"%string /\ ~ generable c.
Proof.
  intros G. split.
  - destruct (lacks_ranges c) eqn:L.
    + rewrite (gen_lack c L) in G. now injection G as <-.
    + destruct (gen_no_lack c L) as (ts & T & _). congruence.
  - intros Q. apply generable_iff in Q as (ts & Q). congruence.
Qed.
Lemma rule_ok_or_fault nt : rule_ok nt -> forall w, ~ rule_fault nt w.
Proof.
  intros (part & co & c & P & N & R & G) w F. destruct F as [name text Q|name text q Q NC NB|name text q c' co' t rest Q N' NO L NG]; cbn [fst snd] in *.
  - exact (Q _ P).
  - assert (E : parse_plural_condition text = Err "Parser failed") by (apply condition_error; auto). congruence.
  - assert (R' : parse_plural_condition text = Ok co') by (apply reading_parses; right; eauto). rewrite R' in R. injection R as ->.
    apply third_part_iff in P, Q. rewrite P in Q. injection Q as <-. apply names_iff in N, N'. apply NG, G. congruence.
Qed.
Lemma generable_nil : generable [].
Proof. now intros a r []. Qed.
Lemma rules_panic r w : gen_lang_rules r = Panic w -> first_fault rule_fault r w.
Proof.
  induction r as [|[name text] r IH]; cbn [gen_lang_rules]; [discriminate|]. intros G.
  assert (HEAD : rule_fault (name, text) w -> first_fault rule_fault ((name, text) :: r) w).
  { intros F. exists [], (name, text), r. split; [reflexivity|]. split; [now intros y v []|exact F]. }
  assert (TAIL : rule_ok (name, text) -> first_fault rule_fault r w -> first_fault rule_fault ((name, text) :: r) w).
  { intros K (l1 & x & l2 & -> & B & F). exists ((name, text) :: l1), x, l2. split; [reflexivity|]. split; [|exact F].
    intros y v [<-|I]; [now apply rule_ok_or_fault|now apply B]. }
  apply rbind_panic in G as [G|(part & P & G)].
  { apply unwrap_panic in G as [G ->]. apply HEAD. constructor. intros part Q. apply third_part_iff in Q. congruence. }
  apply unwrap_ok in P. apply third_part_iff in P. apply rbind_panic in G as [G|(co & R & G)].
  { apply HEAD. destruct (parse_plural_condition text) as [c|e|v] eqn:E; [discriminate| |].
    - injection G as <-. apply condition_error in E as (_ & A & B). exact (rf_text _ _ _ P A B).
    - exfalso. exact (proj2 (no_panic text) v E). }
  destruct (parse_plural_condition text) as [c|e|v] eqn:E; try discriminate. injection R as ->.
  assert (N : names part (category_of_name part)) by now apply names_iff.
  assert (OK : (category_of_name part <> OTHER -> generable co) -> rule_ok (name, text)).
  { intros Q. exists part, co, (category_of_name part). auto. }
  destruct (category_of_name part) eqn:CN; try (apply TAIL; [now apply OK|now apply IH]);
   (apply rbind_panic in G as [G|(ts & T & G)];
    [apply pr_panic in G as [-> G]; apply HEAD; apply reading_parses in E as [[_ ->]|(t & rest & E)];
       [now destruct (G generable_nil)|];
     refine (rf_within _ _ _ _ _ _ _ P N _ E G); discriminate
    |apply rbind_panic in G as [G|(l & _ & G)]; [|discriminate];
     apply TAIL; [apply OK; intros _; apply generable_iff; eauto|now apply IH]]).
Qed.
Lemma rules_no_fault rules : Forall rule_ok rules -> forall w, ~ first_fault rule_fault rules w.
Proof.
  intros F w (l1 & x & l2 & -> & _ & K). apply Forall_app in F as [_ F]. inversion F; subst. now apply (rule_ok_or_fault x) in K.
Qed.

(** ** The data of a type *)
Lemma key_known key : langid_from_str key = None <-> forall id, ~ names_id key id.
Proof.
  split.
  - intros E id H. apply langid_iff in H. congruence.
  - intros H. destruct (langid_from_str key) as [id|] eqn:E; [|reflexivity]. apply langid_iff in E. now destruct (H id).
Qed.
Lemma keys_panic (d : rule_map) w : parse_keys d = Panic w -> first_fault key_fault d w.
Proof.
  induction d as [|[key rules] d IH]; cbn [parse_keys]; [discriminate|]. intros G.
  assert (TAIL : (forall v, ~ key_fault (key, rules) v) -> first_fault key_fault d w -> first_fault key_fault ((key, rules) :: d) w).
  { intros K (l1 & x & l2 & -> & B & F). exists ((key, rules) :: l1), x, l2. split; [reflexivity|]. split; [|exact F].
    intros y v [<-|I]; [apply K|now apply B]. }
  destruct (bytes_eqb key (bs "root")) eqn:R.
  { apply bytes_eqb_eq in R. apply TAIL; [|now apply IH]. intros v (N & _). now apply N. }
  assert (R' : key <> bs "root") by (intros ->; now rewrite bytes_eqb_refl in R).
  apply rbind_panic in G as [G|(id & I & G)].
  - apply unwrap_panic in G as [G ->]. exists [], (key, rules), d. split; [reflexivity|]. split; [now intros y v []|].
    split; [exact R'|]. split; [now apply key_known|reflexivity].
  - apply unwrap_ok in I. apply rbind_panic in G as [G|(l & _ & G)]; [|discriminate]. apply TAIL; [|now apply IH].
    intros v (_ & N & _). apply (N id). now apply langid_iff.
Qed.
Lemma map_panic {A B} (f : A -> res B) l w : map_res f l = Panic w ->
  exists l1 x l2, l = l1 ++ x :: l2 /\ (forall y, In y l1 -> exists b, f y = Ok b) /\ f x = Panic w.
Proof.
  induction l as [|x l IH]; cbn [map_res]; [discriminate|]. intros G. apply rbind_panic in G as [G|(b & B' & G)].
  - exists [], x, l. split; [reflexivity|]. split; [now intros y []|exact G].
  - apply rbind_panic in G as [G|(m & _ & G)]; [|discriminate]. destruct (IH G) as (l1 & y & l2 & -> & C & D).
    exists (x :: l1), y, l2. split; [reflexivity|]. split; [|exact D]. intros z [<-|Z]; eauto.
Qed.
Lemma sorted_app {V} (l1 : list (langid * V)) x l2 : ids_sorted (List.map fst (l1 ++ x :: l2)) -> ids_sorted (List.map fst (x :: l2)).
Proof.
  induction l1 as [|a l1 IH]; [easy|]. cbn [app List.map]. intros H. apply IH. cbn [ids_sorted] in H.
  destruct (List.map fst (l1 ++ x :: l2)); [exact Logic.I|]. now destruct H.
Qed.
Lemma data_no_fault d : data_ok d -> forall w, ~ data_fault d w.
Proof.
  intros D w [(l1 & [key rules] & l2 & -> & _ & N & K & _)|key id rules _ (I & N & _) F _].
  - cbn [fst] in *. apply key_known in K. apply (D key rules); [apply in_or_app; right; now left|exact N|exact K].
  - revert F. apply rules_no_fault. now apply (D key rules).
Qed.
Lemma data_panic srt d w : sorts srt -> gen_type_rs srt d = Panic w -> data_fault d w.
Proof.
  intros S G. apply rbind_panic in G as [G|(l & P & G)]; [now apply df_key, keys_panic|].
  apply map_panic in G as (l1 & [id rules] & l2 & E & B & G).
  apply rbind_panic in G as [G|(set & _ & G)]; [|discriminate]. apply rules_panic in G.
  apply parse_keys_ok in P.
  assert (TO : forall iv, In iv (srt _ l) -> exists key, is_locale d key (fst iv) (snd iv)).
  { intros iv I. apply (Permutation_in _ (Permutation_sym (proj1 (S _ l)))) in I.
    destruct (Forall2_in_r _ _ _ _ P I) as ([key rules'] & J & A & Q). cbn [fst snd] in *. apply filter_In in J as [J1 J2]. subst rules'.
    exists key. split; [exact J1|]. split; [now apply not_root_key|]. now apply langid_iff. }
  assert (OF : forall key id' rules', is_locale d key id' rules' -> In (id', rules') (srt _ l)).
  { intros key id' rules' (J & N & A). apply langid_iff in A.
    assert (J' : In (key, rules') (List.filter (fun kv : bytes * bmap bytes => negb (is_root (fst kv))) d)).
    { apply filter_In. split; [auto|]. now apply not_root_key. }
    destruct (Forall2_in_l _ _ _ _ P J') as ([id2 rules2] & I & A' & Q). cbn [fst snd] in *. subst rules2.
    rewrite A in A'. injection A' as <-. exact (Permutation_in _ (proj1 (S _ l)) I). }
  destruct (TO (id, rules)) as (key & K). { rewrite E. apply in_or_app. right. now left. }
  apply (df_rule d w key id rules); [|exact K|exact G|].
  - intros [k r] v I (N & Q & _). cbn [fst] in *.
    assert (J : In (k, r) (List.filter (fun kv : bytes * bmap bytes => negb (is_root (fst kv))) d)).
    { apply filter_In. split; [auto|]. now apply not_root_key. }
    destruct (Forall2_in_l _ _ _ _ P J) as ([id2 r2] & _ & A & _). cbn [fst] in A. apply (Q id2). now apply langid_iff.
  - intros key' id' rules' v K' L. apply OF in K'. rewrite E in K'. apply in_app_or in K' as [I|I].
    + destruct (B _ I) as (b & B'). apply rbind_ok in B' as (set & B' & _). apply rules_no_fault. apply lang_rules_iff. eauto.
    + exfalso. apply id_less_iff in L. destruct I as [I|I].
      * injection I as -> ->. now rewrite langid_compare_refl in L.
      * pose proof (proj2 (S _ l)) as SO. rewrite E in SO. apply sorted_app in SO.
        apply (sorted_head _ _ SO _ I). cbn [fst]. now apply langid_compare_gt.
Qed.

(** ** One input *)
Lemma seen srt t rs o : part_ok srt None (collect t rs) o -> (o <> None <-> exists r0, In r0 rs /\ data_of t r0 <> None).
Proof.
  intros P. split.
  - intros N. destruct (collect t rs) as [|d m] eqn:E; [cbn in P; congruence|].
    assert (K : In d (collect t rs)) by (rewrite E; now left). apply collect_in in K as (r & R & D). exists r. split; [auto|congruence].
  - intros (r & R & D). destruct (data_of t r) as [d|] eqn:Q; [|easy]. assert (K : In d (collect t rs)) by (apply collect_in; eauto).
    destruct (collect t rs) as [|d0 [|]]; cbn in P; [destruct K| |destruct P]. destruct P as (_ & ts & _ & ->). discriminate.
Qed.
Lemma part_panic srt t rs r o w : sorts srt -> part_ok srt None (collect t rs) o -> gen_part srt o (data_of t r) = Panic w ->
  part_fault t rs r w.
Proof.
  intros S P G. destruct (data_of t r) as [d|] eqn:D; [|discriminate]. exists d. split; [exact D|].
  apply rbind_panic in G as [G|(ts & T & G)]; [left; now apply (data_panic srt)|]. right.
  split. { apply data_no_fault. apply (type_iff srt d S). eauto. }
  destruct o as [o|]; [|discriminate]. split; [|now injection G as <-]. now apply (seen srt t rs (Some o) P).
Qed.
Lemma part_no_fault srt t rs r o o' : sorts srt -> part_ok srt None (collect t rs) o -> gen_part srt o (data_of t r) = Ok o' ->
  forall w, ~ part_fault t rs r w.
Proof.
  intros S P G w (d & D & F). rewrite D in G. apply rbind_ok in G as (ts & T & G).
  destruct F as [F|(_ & TW & _)].
  - revert F. apply data_no_fault. apply (type_iff srt d S). eauto.
  - destruct o; [discriminate|]. now apply (seen srt t rs None P) in TW.
Qed.
Definition state_of srt (rs : list supplemental) (st : gen_state) : Prop :=
  version_ok None (List.map version_of rs) (g_version st) /\
  part_ok srt None (collect CARDINAL rs) (g_cardinal st) /\ part_ok srt None (collect ORDINAL rs) (g_ordinal st).
Lemma state_version srt rs st : state_of srt rs st -> forall r, In r rs -> g_version st = Some (version_of r).
Proof.
  intros (V & _) r I. destruct rs as [|r0 rs]; [destruct I|]. cbn [List.map version_ok] in V. destruct V as (_ & V & F).
  rewrite V. f_equal. rewrite Forall_forall in F. apply F. apply (in_map version_of (r0 :: rs) r I).
Qed.
Lemma step_panic srt rs st r w : sorts srt -> state_of srt rs st -> gen_step srt st r = Panic w -> input_fault rs r w.
Proof.
  intros S ST G. apply rbind_panic in G as [G|(v & V & G)].
  - left. destruct (g_version st) as [v0|] eqn:E; [|discriminate]. destruct (bytes_eqb v0 _) eqn:B; [discriminate|]. injection G as <-.
    split; [|reflexivity]. destruct rs as [|r0 rs]; [destruct ST as (V & _); cbn in V; congruence|]. exists r0. split; [now left|].
    pose proof (state_version _ _ _ ST r0 (or_introl eq_refl)) as Q. rewrite E in Q. injection Q as ->. fold (version_of r) in B.
    intros Q. rewrite Q, bytes_eqb_refl in B. discriminate.
  - right. split.
    + intros r0 I. rewrite (state_version _ _ _ ST r0 I) in V. destruct (bytes_eqb _ _) eqn:B; [|discriminate]. now apply bytes_eqb_eq in B.
    + destruct ST as (_ & C & O). apply rbind_panic in G as [G|(c & GC & G)].
      * left. exact (part_panic srt CARDINAL rs r _ w S C G).
      * right. split; [exact (part_no_fault srt CARDINAL rs r _ _ S C GC)|].
        apply rbind_panic in G as [G|(o & _ & G)]; [|discriminate]. exact (part_panic srt ORDINAL rs r _ w S O G).
Qed.
Lemma step_no_fault srt rs st r st' : sorts srt -> state_of srt rs st -> gen_step srt st r = Ok st' -> forall w, ~ input_fault rs r w.
Proof.
  intros S ST G w F. apply rbind_ok in G as (v & V & G). apply rbind_ok in G as (c & C & G). apply rbind_ok in G as (o & O & _).
  destruct F as [[(r0 & I & N) _]|[_ F]].
  - rewrite (state_version _ _ _ ST r0 I) in V. destruct (bytes_eqb _ _) eqn:B; [|discriminate]. now apply bytes_eqb_eq in B.
  - destruct ST as (_ & PC & PO). destruct F as [F|[_ F]]; revert F;
      [exact (part_no_fault srt CARDINAL rs r _ _ S PC C w)|exact (part_no_fault srt ORDINAL rs r _ _ S PO O w)].
Qed.

(** ** All inputs *)
Lemma loop_app srt js js' st : gen_loop srt st (js ++ js') = rbind (gen_loop srt st js) (fun st' => gen_loop srt st' js').
Proof.
  revert st. induction js as [|j js IH]; intros st; [reflexivity|]. cbn [app gen_loop].
  destruct (unwrap _ (parse_plurals_resource_from_string j)) as [r| |]; [cbn [rbind]|reflexivity|reflexivity].
  destruct (gen_step srt st r) as [s1| |]; [cbn [rbind]|reflexivity|reflexivity]. apply IH.
Qed.
Definition start : gen_state := mkGen None None None.
Lemma loop_state srt js st : gen_loop srt start js = Ok st -> exists rs, inputs_are js rs /\ state_of srt rs st.
Proof. intros G. apply gen_loop_ok in G as (rs & I & V & C & O). exists rs. split; [exact I|]. split; [exact V|]. now split. Qed.
Lemma loop_no_faults srt js rs st : sorts srt -> gen_loop srt start js = Ok st -> inputs_are js rs -> no_faults rs.
Proof.
  intros S G I before r after w ->. apply Forall2_app_inv_r in I as (js1 & js2 & I1 & I2 & ->).
  inversion I2 as [|j ? js3 ? R I3]; subst. rewrite loop_app in G. apply rbind_ok in G as (st1 & G1 & G).
  destruct (loop_state _ _ _ G1) as (rs1 & J & ST). rewrite (inputs_unique _ _ _ J I1) in ST.
  cbn [gen_loop] in G. apply rbind_ok in G as (r' & R' & G). apply unwrap_ok, resource_text_iff in R'.
  assert (E : r' = r). { assert (Q : [r'] = [r]) by (apply (inputs_unique [j]); now repeat constructor). now injection Q. } subst r'.
  apply rbind_ok in G as (st2 & G & _). exact (step_no_fault _ _ _ _ _ S ST G w).
Qed.
Lemma loop_panic srt jsons w : sorts srt -> gen_loop srt start jsons = Panic w ->
  exists js j rest rs, jsons = js ++ j :: rest /\ inputs_are js rs /\ no_faults rs /\
     (((forall r, ~ resource_text j r) /\ w = unwrap_message) \/ exists r, resource_text j r /\ input_fault rs r w).
Proof.
  intros S. induction jsons as [|j js IH] using rev_ind; [discriminate|]. rewrite loop_app. intros G.
  apply rbind_panic in G as [G|(st & L & G)].
  - destruct (IH G) as (js1 & j1 & rest & rs & -> & X). exists js1, j1, (rest ++ [j]), rs. split; [now rewrite <- app_assoc|exact X].
  - destruct (loop_state _ _ _ L) as (rs & I & ST). exists js, j, [], rs. split; [reflexivity|]. split; [exact I|].
    split; [exact (loop_no_faults _ _ _ _ S L I)|]. cbn [gen_loop] in G. apply rbind_panic in G as [G|(r & R & G)].
    + left. apply unwrap_panic in G as [G ->]. split; [|reflexivity]. intros r R. apply resource_text_iff in R. congruence.
    + right. apply unwrap_ok, resource_text_iff in R. exists r. split; [exact R|].
      apply rbind_panic in G as [G|(st' & _ & G)]; [|discriminate]. exact (step_panic _ _ _ _ _ S ST G).
Qed.
Lemma C112_lemma srt jsons w : sorts srt -> generate_rs srt jsons = Panic w -> reported jsons w.
Proof.
  intros S G. apply rbind_panic in G as [G|(ts & _ & G)]; [|discriminate]. apply rbind_panic in G as [G|(st & L & G)].
  - left. exact (loop_panic _ _ _ S G).
  - right. destruct (loop_state _ _ _ L) as (rs & I & ST). exists rs. split; [exact I|]. split; [exact (loop_no_faults _ _ _ _ S L I)|].
    pose proof (seen srt CARDINAL rs _ (proj1 (proj2 ST))) as SC. pose proof (seen srt ORDINAL rs _ (proj2 (proj2 ST))) as SO.
    assert (NONE : g_cardinal st = None -> g_ordinal st = None -> forall r t, In r rs -> data_of t r = None).
    { intros A B r t R. destruct (data_of t r) as [d|] eqn:D; [|reflexivity]. exfalso.
      assert (X : exists r0, In r0 rs /\ data_of t r0 <> None) by (exists r; split; [auto|congruence]).
      destruct t; [apply SC in X|apply SO in X]; congruence. }
    assert (SOME : g_cardinal st <> None \/ g_ordinal st <> None -> exists r t, In r rs /\ data_of t r <> None).
    { intros [A|A]; [apply SC in A|apply SO in A]; destruct A as (r & R & D); eauto. }
    unfold gen_finish in G. destruct (g_version st) as [v|] eqn:V.
    + assert (K : ((g_cardinal st = None /\ g_ordinal st = None) /\ w = "None of the input files provided core data!"%string) \/
        ((g_cardinal st <> None \/ g_ordinal st <> None) /\ isize_from_str v = None /\ w = unwrap_message)).
      { assert (H : forall l, @gen_fn ptr l v = Panic w -> isize_from_str v = None /\ w = unwrap_message).
        { intros l H. apply rbind_panic in H as [H|(? & _ & H)]; [|discriminate]. now apply unwrap_panic in H. }
        destruct (g_cardinal st), (g_ordinal st); cbn [app] in G;
          try (right; split; [first [now left|now right]|exact (H _ G)]). left. split; [auto|]. now injection G as <-. }
      destruct K as [[[A B] ->]|(A & B & ->)].
      * left. split; [now apply NONE|reflexivity].
      * right. split; [now apply SOME|]. split; [|reflexivity]. destruct (SOME A) as (r & _ & R & _). exists r. split; [exact R|].
        rewrite (state_version _ _ _ ST r R) in V. injection V as ->. intros z Z. apply isize_iff in Z. congruence.
    + left. destruct rs as [|r rs].
      * split; [now intros r t []|]. now injection G as <-.
      * pose proof (state_version _ _ _ ST r (or_introl eq_refl)). congruence.
Qed.

(** ** Conversely *)
Lemma split_cases {A} (l1 l1' l2 l2' : list A) x x' : l1 ++ x :: l2 = l1' ++ x' :: l2' ->
  (l1 = l1' /\ x = x' /\ l2 = l2') \/ (exists m, l1' = l1 ++ x :: m) \/ (exists m, l1 = l1' ++ x' :: m).
Proof.
  revert l1'. induction l1 as [|a l1 IH]; intros [|a' l1'] E; cbn [app] in E; injection E as -> E.
  - auto.
  - right. left. now exists l1'.
  - right. right. now exists l1.
  - destruct (IH _ E) as [(-> & -> & ->)|[(m & ->)|(m & ->)]]; [auto|right; left; now exists m|right; right; now exists m].
Qed.
Lemma first_fun {A} (fault : A -> string -> Prop) l w w' : (forall x v v', fault x v -> fault x v' -> v = v') ->
  first_fault fault l w -> first_fault fault l w' -> w = w'.
Proof.
  intros F (l1 & x & l2 & -> & B & K) (m1 & y & m2 & E & B' & K').
  apply split_cases in E as [(-> & -> & _)|[(m & ->)|(m & ->)]]; [eauto| |]; exfalso.
  - apply (B' x w); [apply in_or_app; right; now left|exact K].
  - apply (B y w'); [apply in_or_app; right; now left|exact K'].
Qed.
Lemma rule_fault_fun nt w w' : rule_fault nt w -> rule_fault nt w' -> w = w'.
Proof.
  intros [name text P|name text p P NC NB|name text p c co t rest P N O L G] K;
  inversion K as [n2 t2 P'|n2 t2 p' P' NC' NB'|n2 t2 p' c' co' t' rest' P' N' O' L' G']; subst; try reflexivity; exfalso.
  - now apply (P p').
  - now apply (P' p).
  - assert (E : parse_plural_condition text = Err "Parser failed") by (apply condition_error; auto).
    assert (R' : parse_plural_condition text = Ok co') by (apply reading_parses; right; eauto). congruence.
  - assert (E : parse_plural_condition text = Err "Parser failed") by (apply condition_error; auto).
    assert (R' : parse_plural_condition text = Ok co) by (apply reading_parses; right; eauto). congruence.
Qed.
Lemma key_fault_fun kv w w' : key_fault kv w -> key_fault kv w' -> w = w'.
Proof. intros (_ & _ & ->) (_ & _ & ->). reflexivity. Qed.
Lemma data_fault_fun d w w' :
  (forall key key' id rules rules', is_locale d key id rules -> is_locale d key' id rules' -> rules = rules') ->
  data_fault d w -> data_fault d w' -> w = w'.
Proof.
  intros O [K|key id rules NK L F B] [K'|key' id' rules' NK' L' F' B'].
  - exact (first_fun _ _ _ _ key_fault_fun K K').
  - exfalso. destruct K as (l1 & x & l2 & -> & _ & K). apply (NK' x w); [apply in_or_app; right; now left|exact K].
  - exfalso. destruct K' as (l1 & x & l2 & -> & _ & K'). apply (NK x w'); [apply in_or_app; right; now left|exact K'].
  - assert (E : id = id').
    { destruct (langid_compare id id') eqn:C; [now apply langid_compare_eq in C| |]; exfalso.
      - apply id_less_iff in C. exact (B' _ _ _ _ L C F).
      - apply langid_compare_gt, id_less_iff in C. exact (B _ _ _ _ L' C F'). }
    subst id'. rewrite <- (O _ _ _ _ _ L L') in F'. exact (first_fun _ _ _ _ rule_fault_fun F F').
Qed.
Lemma part_fault_fun t before r w w' : one_key_each r -> part_fault t before r w -> part_fault t before r w' -> w = w'.
Proof.
  intros O (d & D & F) (d' & D' & F'). rewrite D in D'. injection D' as <-.
  destruct F as [F|(F & _ & ->)], F' as [F'|(F' & _ & ->)].
  - apply (data_fault_fun d); [|exact F|exact F']. intros key key' id rules rules'. now apply (O t d).
  - now destruct (F' w).
  - now destruct (F w').
  - reflexivity.
Qed.
Lemma input_fault_fun before r w w' : one_key_each r -> input_fault before r w -> input_fault before r w' -> w = w'.
Proof.
  intros O F F'. destruct F as [[(r0 & I & N) ->]|(V & F)], F' as [[(r1 & I' & N') ->]|(V' & F')].
  - reflexivity.
  - now destruct (N (V' r0 I)).
  - now destruct (N' (V r1 I')).
  - destruct F as [F|[A F]], F' as [F'|[A' F']].
    + exact (part_fault_fun _ _ _ _ _ O F F').
    + now destruct (A' w).
    + now destruct (A w').
    + exact (part_fault_fun _ _ _ _ _ O F F').
Qed.
Lemma text_fun j r r' : resource_text j r -> resource_text j r' -> r = r'.
Proof. intros A B. apply resource_text_iff in A, B. congruence. Qed.
Lemma inputs_prefix js j m rs' : inputs_are (js ++ j :: m) rs' -> exists rs r rs2, rs' = rs ++ r :: rs2 /\ inputs_are js rs /\ resource_text j r.
Proof.
  intros I. apply Forall2_app_inv_l in I as (rs & rs2 & I & I2 & ->). inversion I2 as [|? r ? rs3 R _]; subst. now exists rs, r, rs3.
Qed.
Lemma prefix_clean js j m rs' w rs : inputs_are (js ++ j :: m) rs' -> no_faults rs' -> inputs_are js rs ->
  ~ (((forall r, ~ resource_text j r) /\ w = unwrap_message) \/ exists r, resource_text j r /\ input_fault rs r w).
Proof.
  intros I N J H. apply inputs_prefix in I as (rs1 & r & rs2 & -> & I & R). rewrite (inputs_unique _ _ _ J I) in H.
  destruct H as [[H _]|(r' & R' & H)]; [exact (H r R)|]. rewrite (text_fun _ _ _ R' R) in H. exact (N rs1 r rs2 w eq_refl H).
Qed.
Lemma reported_fun jsons w w' : (forall j r, In j jsons -> resource_text j r -> one_key_each r) ->
  reported jsons w -> reported jsons w' -> w = w'.
Proof.
  intros O [(js & j & rest & rs & -> & I & N & F)|(rs & I & N & F)] [(js' & j' & rest' & rs' & E & I' & N' & F')|(rs' & I' & N' & F')].
  - apply split_cases in E as [(<- & <- & <-)|[(m & ->)|(m & ->)]].
    + rewrite <- (inputs_unique _ _ _ I I') in *.
      destruct F as [[A ->]|(r & R & F)], F' as [[A' ->]|(r' & R' & F')].
      * reflexivity.
      * now destruct (A r').
      * now destruct (A' r).
      * rewrite (text_fun _ _ _ R' R) in F'. apply (input_fault_fun rs r); [|exact F|exact F'].
        apply (O j r); [apply in_or_app; right; now left|exact R].
    + now destruct (prefix_clean _ _ _ _ w _ I' N' I).
    + now destruct (prefix_clean _ _ _ _ w' _ I N I').
  - now destruct (prefix_clean _ _ _ _ w _ I' N' I).
  - subst jsons. now destruct (prefix_clean _ _ _ _ w' _ I N I').
  - rewrite <- (inputs_unique _ _ _ I I') in *. destruct F as [[A ->]|((r & t & R & D) & _ & ->)], F' as [[A' ->]|((r' & t' & R' & D') & _ & ->)];
      [reflexivity| | |reflexivity].
    + now destruct D'; apply A.
    + now destruct D; apply A'.
Qed.
Lemma reported_panics srt jsons w : sorts srt -> reported jsons w -> exists v, generate_rs srt jsons = Panic v.
Proof.
  intros S F. apply not_ok_panics. intros out G. destruct (proj1 (C64_lemma srt jsons S) (ex_intro _ out G)) as (rs & I & A).
  assert (N : no_faults rs).
  { apply rbind_ok in G as (ts & G & _). apply rbind_ok in G as (st & L & _). exact (loop_no_faults _ _ _ _ S L I). }
  destruct F as [(js & j & rest & rs' & -> & I' & _ & F)|(rs' & I' & _ & F)].
  - now destruct (prefix_clean _ _ _ _ w _ I N I').
  - rewrite <- (inputs_unique _ _ _ I I') in F. destruct F as [[F _]|(_ & (r & R & F) & _)].
    + destruct (ac_some _ A) as (r & t & d & R & D). rewrite (F r t R) in D. discriminate.
    + destruct (ac_version _ A) as (v & z & V & Z). rewrite Forall_forall in V. apply (F z). now rewrite (V r R).
Qed.
Lemma C112_exact_lemma srt jsons w : sorts srt -> (forall j r, In j jsons -> resource_text j r -> one_key_each r) ->
  (generate_rs srt jsons = Panic w <-> reported jsons w).
Proof.
  intros S O. split; [now apply C112_lemma|]. intros F. destruct (reported_panics srt jsons w S F) as (v & G). rewrite G. f_equal.
  apply (reported_fun jsons); [exact O|now apply (C112_lemma srt)|exact F].
Qed.
End Width.
