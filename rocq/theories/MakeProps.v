(** * Properties of the generated file *)
From Coq Require Import Lia Sorting.Permutation.
From Verif Require Import Base Ast CldrParser Operands LangId Tokens GenPr GenRs Json JsonSpec JsonDe MakeRules RustExpr Spec
  DigitFacts LangOrder LangIdFacts LexFacts FileSpec MakeFacts GenFacts MakeRead MakeTable MakeBody.
Open Scope N_scope.

Section Width.
Context {ptr : ptr_width}.

Lemma Forall2_impl_in {A B} (R R' : A -> B -> Prop) l m :
  (forall a b, In a l -> R a b -> R' a b) -> Forall2 R l m -> Forall2 R' l m.
Proof.
  intros H F. induction F as [|a b l m X F IH]; constructor.
  - apply H; [now left|auto].
  - apply IH. intros x y I. apply H. now right.
Qed.
Lemma Forall2_in_l {A B} (R : A -> B -> Prop) l m a : Forall2 R l m -> In a l -> exists b, In b m /\ R a b.
Proof.
  intros F. induction F as [|x y l m X F IH]; intros []; [subst; exists y; split; [now left|auto]|].
  destruct IH as (b & I & H'); auto. exists b. split; [now right|auto].
Qed.
Lemma Forall2_in_r {A B} (R : A -> B -> Prop) l m b : Forall2 R l m -> In b m -> exists a, In a l /\ R a b.
Proof.
  intros F. induction F as [|x y l m X F IH]; intros []; [subst; exists x; split; [now left|auto]|].
  destruct IH as (a & I & H'); auto. exists a. split; [now right|auto].
Qed.

(** ** C50 *)
Lemma then_not_gt a b c : then_compare a (then_compare b c) <> Gt -> a <> Gt.
Proof. now destruct a. Qed.
Lemma drop_mono a b : ~ id_less b a -> ~ id_less (drop_variants b) (drop_variants a).
Proof.
  rewrite <- !not_after_iff.
  unfold langid_compare, drop_variants. cbn [li_language li_script li_region li_variants].
  destruct (option_compare bytes_compare (li_language a) (li_language b)); cbn [then_compare]; auto.
  destruct (option_compare bytes_compare (li_script a) (li_script b)); cbn [then_compare]; auto.
  destruct (option_compare bytes_compare (li_region a) (li_region b)); cbn; auto. discriminate.
Qed.
Lemma sorted_drop l : ids_sorted l -> ids_sorted (List.map drop_variants l).
Proof.
  induction l as [|a [|b l] IH]; auto. cbn [ids_sorted List.map]. intros [H1 H2]. split; [now apply drop_mono|]. now apply IH.
Qed.
Lemma sorted_increasing l : ids_sorted l -> NoDup l -> ids_increasing l.
Proof.
  induction l as [|a [|b l] IH]; auto. cbn [ids_sorted ids_increasing]. intros [H1 H2] N. inversion N as [|? ? N1 N2]; subst.
  split; [|now apply IH]. apply not_after_iff in H1. apply id_less_iff. destruct (langid_compare a b) eqn:E; auto; [|easy]. apply langid_compare_eq in E. subst. exfalso. apply N1. now left.
Qed.
Lemma keys_known srt rs t out ks : sorts srt -> table_for srt rs t out -> output_keys t out = Some ks ->
  exists r d l, In r rs /\ data_of t r = Some d /\ parse_keys d = Ok l /\ ks = List.map drop_variants (List.map fst (srt _ l)).
Proof.
  intros S T O. destruct T as [_ N|r d l ts R D P U G F H K T].
  - exfalso. apply N. unfold output_has, output_keys in *. destruct (lex out); [|easy]. now destruct (table_tokens _ _).
  - exists r, d, l. split; [auto|]. split; [auto|]. split; [auto|]. rewrite K in O. apply map_opt_some in O.
    pose proof (Permutation_Forall (proj1 (S _ l)) (keys_valid _ _ P)) as V. clear - O V. revert ks O.
    induction (srt _ l) as [|[id r] l' IH]; intros ks O; inversion O as [|? k ? ks' E O']; subst; [reflexivity|].
    inversion V; subst. cbn [List.map]. f_equal; [|now apply IH].
    pose proof (read_lang_known _ _ E) as LK. cbn [fst] in *. rewrite read_gen_langid in E by auto. congruence.
Qed.
Lemma C50_lemma srt jsons out t ks : sorts srt -> generate_rs srt jsons = Ok out -> output_keys t out = Some ks ->
  ids_sorted ks /\ (NoDup ks -> ids_increasing ks).
Proof.
  intros S G O. apply (generate_table _ _ _ t) in G as (rs & I & T). destruct (keys_known _ _ _ _ _ S T O) as (r & d & l & _ & _ & _ & ->).
  assert (K : ids_sorted (List.map drop_variants (List.map fst (srt (bmap bytes) l)))) by apply sorted_drop, (proj2 (S _ l)).
  split; [auto|]. now apply sorted_increasing.
Qed.

(** ** C51 *)
Lemma C51_lemma srt jsons out rs t r d : sorts srt -> generate_rs srt jsons = Ok out -> inputs_are jsons rs ->
  In r rs -> data_of t r = Some d ->
  exists ids, Forall2 (fun k id => langid_from_str k = Some id) (locales d) ids /\
    (Forall (fun id => li_language id <> None) ids ->
     exists ks, output_keys t out = Some ks /\ Permutation (List.map drop_variants ids) ks) /\
    (~ Forall (fun id => li_language id <> None) ids -> output_keys t out = None).
Proof.
  intros S G I R D. apply (generate_table _ _ _ t) in G as (rs' & I' & T). rewrite (inputs_unique _ _ _ I I') in *. clear I I' rs.
  destruct T as [N _|r' d' l ts R' D' P U G F H K T]; [rewrite (N r R) in D; discriminate|].
  rewrite (U r R d D) in *. clear U. exists (List.map fst l). split; [now apply parse_keys_ids|].
  assert (PM : Permutation (List.map fst l) (List.map fst (srt _ l))) by apply Permutation_map, (proj1 (S _ l)).
  pose proof (Permutation_Forall (proj1 (S _ l)) (keys_valid _ _ P)) as V. split.
  - intros L. exists (List.map drop_variants (List.map fst (srt _ l))). split; [|now apply Permutation_map].
    rewrite K. apply map_opt_some. apply (Permutation_Forall PM) in L. clear - V L.
    induction (srt _ l) as [|[id x] m IH]; cbn [List.map fst] in *; constructor; inversion V; subst; inversion L; subst; auto.
    now apply read_gen_langid.
  - intros NL. destruct (output_keys t out) as [ks|] eqn:O; [|reflexivity]. exfalso. apply NL.
    apply (Permutation_Forall (Permutation_sym PM)). symmetry in K. apply map_opt_some in K. clear - K.
    induction K as [|id k ? ? E F IH]; constructor; auto. exact (read_lang_known _ _ E).
Qed.
Lemma C51_none srt jsons out rs t : generate_rs srt jsons = Ok out -> inputs_are jsons rs ->
  (forall r, In r rs -> data_of t r = None) -> ~ output_has t out.
Proof.
  intros G I N. apply (generate_table _ _ _ t) in G as (rs' & I' & T). rewrite (inputs_unique _ _ _ I I') in *.
  destruct T as [_ H|r' d' l ts R' D' _ _ _ _ _ _ _]; [auto|]. rewrite (N r' R') in D'. discriminate.
Qed.

(** ** C53, C54 *)
Lemma not_ok_panics srt jsons : (forall out, generate_rs srt jsons <> Ok out) -> exists w, generate_rs srt jsons = Panic w.
Proof.
  intros H. destruct (generate_rs srt jsons) as [o|e|w] eqn:E; [now specialize (H o)| |now exists w].
  exfalso. exact (generate_no_err srt jsons e E).
Qed.
Lemma gen_ok_of srt jsons rs out : generate_rs srt jsons = Ok out -> inputs_are jsons rs ->
  exists v num c o, gen_ok srt rs v num c o /\ out = print_tokens (file_tokens num c o).
Proof.
  intros G I. apply generate_ok in G as (rs' & v & num & c & o & I' & G & E). rewrite (inputs_unique _ _ _ I I') in *. eauto 8.
Qed.
Lemma C53_differ srt jsons rs r1 r2 : inputs_are jsons rs -> In r1 rs -> In r2 rs -> version_of r1 <> version_of r2 ->
  exists w, generate_rs srt jsons = Panic w.
Proof.
  intros I R1 R2 N. apply not_ok_panics. intros out G. destruct (gen_ok_of _ _ _ _ G I) as (v & num & c & o & K & _).
  pose proof (ok_versions _ _ _ _ _ _ K) as V. rewrite Forall_forall in V. apply N. now rewrite (V _ R1), (V _ R2).
Qed.
Lemma isize_end_limit : isize_end = Z.of_N isize_limit /\ 0 < isize_limit <= 9223372036854775808.
Proof. unfold isize_end, isize_limit. destruct ptr; (split; [reflexivity|lia]). Qed.
Lemma isize_iff v z : isize_from_str v = Some z <-> version_number v z.
Proof.
  unfold version_number, isize_from_str. destruct isize_end_limit as [-> LP]. generalize dependent isize_limit. intros lim LP. split.
  - destruct v as [|c r]; [easy|]. destruct (N.eqb_spec c 45) as [->|N].
    + destruct r as [|c r]; [easy|]. destruct (checked_digits _ 0 (c :: r)) as [n|] eqn:E; [|easy]. intros H. injection H as <-.
      apply checked_digits_some in E as (D & -> & M); [|lia]. exists (bs "-"), (c :: r). rewrite N.mul_0_l, N.add_0_l in *.
      split; [reflexivity|]. split; [auto|]. split; [easy|]. right. split; [reflexivity|]. split; [reflexivity|].
      lia.
    + destruct (unsigned_from_str _ _) as [n|] eqn:E; [|easy]. intros H. injection H as <-. unfold unsigned_from_str in E.
      destruct (N.eqb_spec c 43) as [->|N'].
      * destruct r as [|c r]; [easy|]. apply checked_digits_some in E as (D & -> & M); [|lia]. exists (bs "+"), (c :: r). rewrite N.mul_0_l, N.add_0_l in *.
        split; [reflexivity|]. split; [auto|]. split; [easy|]. left. split; [auto|]. split; [reflexivity|lia].
      * apply checked_digits_some in E as (D & -> & M); [|lia]. exists [], (c :: r). rewrite N.mul_0_l, N.add_0_l in *.
        split; [reflexivity|]. split; [auto|]. split; [easy|]. left. split; [auto|]. split; [reflexivity|lia].
  - intros (sg & ds & -> & D & NE & [(S & -> & L)|(-> & -> & L)]).
    + destruct ds as [|c r]; [easy|]. inversion D as [|? ? C D']; subst. unfold digit_char in C. destruct S as [->| ->].
      * cbn [app]. destruct (N.eqb_spec c 45); [lia|]. unfold unsigned_from_str. destruct (N.eqb_spec c 43); [lia|].
        rewrite checked_digits_ok by (auto; lia). now rewrite N.mul_0_l, N.add_0_l.
      * change (bs "+" ++ c :: r) with (43 :: c :: r). cbv beta iota. change (43 =? 45) with false. cbv iota. unfold unsigned_from_str.
        change (43 =? 43) with true. cbv iota. rewrite checked_digits_ok by (auto; lia). now rewrite N.mul_0_l, N.add_0_l.
    + destruct ds as [|c r]; [easy|]. change (bs "-" ++ c :: r) with (45 :: c :: r). cbv beta iota. change (45 =? 45) with true. cbv iota.
      rewrite checked_digits_ok by (auto; lia). now rewrite N.mul_0_l, N.add_0_l.
Qed.
Lemma C53_emits srt jsons rs out : generate_rs srt jsons = Ok out -> inputs_are jsons rs ->
  exists v z, Forall (fun r => version_of r = v) rs /\ version_number v z /\
    output_version out = Some (Z.to_N (z mod 2 ^ 64)) /\ ((0 <= z)%Z -> output_version out = Some (Z.to_N z)).
Proof.
  intros G I. pose proof G as G0. apply generate_lex in G as (rs' & v & num & c & o & I' & G & L). rewrite (inputs_unique _ _ _ I I') in *.
  exists v, num. split; [exact (ok_versions _ _ _ _ _ _ G)|]. pose proof (ok_num _ _ _ _ _ _ G) as V. apply isize_iff in V.
  split; [auto|]. unfold output_version. rewrite L, file_version. split; [reflexivity|].
  intros P. rewrite Z.mod_small; [reflexivity|]. split; [auto|]. destruct V as (sg & ds & _ & _ & _ & [(_ & _ & H)|(_ & H & _)]); destruct isize_end_limit as [E LP]; change (2 ^ 64)%Z with 18446744073709551616%Z; lia.
Qed.
Lemma collect_two t l1 r1 l2 r2 l3 : data_of t r1 <> None -> data_of t r2 <> None ->
  exists a b l, collect t (l1 ++ r1 :: l2 ++ r2 :: l3) = l ++ a ++ b /\ a <> [] /\ b <> [] /\ (2 <= List.length (a ++ b))%nat.
Proof.
  intros N1 N2. unfold collect. rewrite flat_map_app. cbn [flat_map]. rewrite flat_map_app. cbn [flat_map].
  destruct (data_of t r1) as [d1|]; [|easy]. destruct (data_of t r2) as [d2|]; [|easy].
  exists ([d1] ++ collect t l2), ([d2] ++ collect t l3), (collect t l1). split; [cbn [app]; reflexivity|]. split; [easy|]. split; [easy|].
  cbn [app List.length]. rewrite app_length. cbn [List.length]. lia.
Qed.
Lemma C54_twice srt jsons l1 r1 l2 r2 l3 t : inputs_are jsons (l1 ++ r1 :: l2 ++ r2 :: l3) ->
  data_of t r1 <> None -> data_of t r2 <> None -> exists w, generate_rs srt jsons = Panic w.
Proof.
  intros I N1 N2. apply not_ok_panics. intros out G. destruct (gen_ok_of _ _ _ _ G I) as (v & num & c & o & K & _).
  pose proof (gen_part_of _ _ _ _ _ _ t K) as P. apply part_stream in P.
  destruct (collect_two t l1 r1 l2 r2 l3 N1 N2) as (a & b & l & E & _ & _ & L). rewrite E in P.
  destruct (l ++ a ++ b) as [|x [|y m]] eqn:Q; auto; apply (f_equal (@List.length _)) in Q; rewrite app_length in Q; cbn in Q; lia.
Qed.
Lemma C54_none srt jsons rs : inputs_are jsons rs ->
  Forall (fun r => data_of CARDINAL r = None /\ data_of ORDINAL r = None) rs -> exists w, generate_rs srt jsons = Panic w.
Proof.
  intros I N. apply not_ok_panics. intros out G. destruct (gen_ok_of _ _ _ _ G I) as (v & num & c & o & K & _).
  rewrite Forall_forall in N.
  assert (C : forall t, collect t rs = []).
  { intros t. destruct (collect t rs) as [|d m] eqn:E; [reflexivity|]. assert (H : In d (collect t rs)) by (rewrite E; now left).
    apply collect_in in H as (r & R & D). destruct (N r R). destruct t; congruence. }
  pose proof (gen_part_of _ _ _ _ _ _ CARDINAL K) as P1. pose proof (gen_part_of _ _ _ _ _ _ ORDINAL K) as P2.
  rewrite C in P1, P2. cbn in P1, P2. subst. now destruct (ok_some _ _ _ _ _ _ K).
Qed.

(** ** C57 *)
Lemma eval_arms_other arms po c : Forall (fun a : bexpr * category => snd a <> OTHER) arms ->
  eval_arms arms OTHER po = Ok c -> (c = OTHER <-> Forall (fun a => eval (fst a) po = Ok false) arms).
Proof.
  induction 1 as [|[e k] arms N F IH]; cbn [eval_arms].
  - intros H. injection H as <-. split; constructor.
  - cbn [snd] in N. destruct (eval e po) as [[]| |] eqn:E; cbn [rbind]; try easy.
    + intros H. injection H as <-. split; [easy|]. intros H. inversion H as [|? ? X]; subst. cbn in X. congruence.
    + intros H. rewrite (IH H). split; [intros K; constructor; auto|]. intros K. now inversion K.
Qed.
Lemma input_locale_of d l id rules cs : parse_keys d = Ok l -> In (id, rules) l -> Forall2 rule_reads rules cs ->
  exists key, input_locale d key id cs.
Proof.
  intros P I R. apply parse_keys_ok in P. destruct (Forall2_in_r _ _ _ _ P I) as ([key rules'] & J & [A B]). cbn in A, B. subst rules'.
  apply filter_In in J as [J1 J2]. cbn in J2. exists key. split.
  - intros ->. unfold is_root in J2. now rewrite bytes_eqb_refl in J2.
  - split; [auto|]. exists rules. auto.
Qed.
Definition arm_of (cc : category * condition) (arm : bexpr * category) : Prop :=
  snd arm = fst cc /\ exists ts, gen_pr (snd cc) = Ok ts /\ read_bexpr ts = Some (fst arm).
Lemma entry_lemma srt jsons out rs t tbl id b : sorts srt -> generate_rs srt jsons = Ok out -> inputs_are jsons rs ->
  output_table t out = Some tbl -> In (id, b) tbl ->
  exists r d key id0 cs, In r rs /\ data_of t r = Some d /\ input_locale d key id0 cs /\ id = drop_variants id0 /\
    Forall2 arm_of (List.filter not_other cs) (b_arms b) /\ b_else b = OTHER.
Proof.
  intros S G I O E. apply (generate_table _ _ _ t) in G as (rs' & I' & T). rewrite (inputs_unique _ _ _ I I') in *.
  destruct (table_entries _ _ _ _ _ S T O) as (r & d & l & R & D & P & F).
  destruct (Forall2_in_r _ _ _ _ F E) as ([id0 rules] & J & A & B & cs & C1 & C2). cbn [fst snd] in *.
  apply (Permutation_in _ (Permutation_sym (proj1 (S _ l)))) in J.
  destruct (input_locale_of d l id0 rules cs P J C1) as (key & K). exists r, d, key, id0, cs. auto 7.
Qed.
Lemma arms_not_other cs arms : Forall2 arm_of (List.filter not_other cs) arms -> Forall (fun a => snd a <> OTHER) arms.
Proof.
  intros F. assert (K : Forall (fun cc => not_other cc = true) (List.filter not_other cs)) by (apply Forall_forall; intros x I; now apply filter_In in I).
  induction F as [|[c co] [e c'] ? ? [X Y] B IH]; constructor; inversion K as [|? ? K1 K2]; subst; auto. cbn in *. subst c'. now destruct c.
Qed.
Lemma C57_lemma srt jsons out rs t tbl id b : sorts srt -> generate_rs srt jsons = Ok out -> inputs_are jsons rs ->
  output_table t out = Some tbl -> In (id, b) tbl ->
  exists r d key id0 cs, In r rs /\ data_of t r = Some d /\ input_locale d key id0 cs /\ id = drop_variants id0 /\
    Forall2 (fun cc arm => snd arm = fst cc /\ exists ts, gen_pr (snd cc) = Ok ts /\ read_bexpr ts = Some (fst arm))
      (List.filter not_other cs) (b_arms b) /\
    forall po c, eval_body b po = Ok c -> (c = OTHER <-> Forall (fun arm => eval (fst arm) po = Ok false) (b_arms b)).
Proof.
  intros S G I O E. destruct (entry_lemma _ _ _ _ _ _ _ _ S G I O E) as (r & d & key & id0 & cs & A & B & C & D & F & H).
  exists r, d, key, id0, cs. split; [auto|]. split; [auto|]. split; [auto|]. split; [auto|]. split; [auto|].
  intros po c V. unfold eval_body in V. rewrite H in V. apply (eval_arms_other _ _ _ (arms_not_other _ _ F) V).
Qed.

(** *** the text of "other" *)
Definition is_other_name (name : bytes) : Prop :=
  exists part, third_part name part /\ names part OTHER.
Definition same_rule (a b : bytes * bytes) : Prop :=
  fst a = fst b /\ (snd a = snd b \/
    is_other_name (fst a) /\ exists ca cb, parse_plural_condition (snd a) = Ok ca /\ parse_plural_condition (snd b) = Ok cb).
Definition same_locale (a b : bytes * bmap bytes) : Prop :=
  fst a = fst b /\ (fst a = bs "root" \/ Forall2 same_rule (snd a) (snd b)).
Definition same_data (a b : option rule_map) : Prop :=
  match a, b with Some x, Some y => Forall2 same_locale x y | None, None => True | _, _ => False end.
Definition same_but_other (a b : supplemental) : Prop :=
  version_of a = version_of b /\ same_data (su_cardinal a) (su_cardinal b) /\ same_data (su_ordinal a) (su_ordinal b).
Lemma same_lang a b : Forall2 same_rule a b -> gen_lang_rules a = gen_lang_rules b.
Proof.
  induction 1 as [|[n t] [n' t'] a b [N T] F IH]; [reflexivity|]. cbn [fst snd] in *. subst n'. cbn [gen_lang_rules]. rewrite IH.
  destruct T as [->|((part & P1 & P2) & ca & cb & A & B)]; [reflexivity|].
  apply third_part_iff in P1. apply names_iff in P2. symmetry in P2. unfold cat_name_of. rewrite P1. cbn [unwrap rbind].
  rewrite A, B. cbn [rbind]. now rewrite P2.
Qed.
Lemma zip_sorted {V} (srt : sorter) (R : V -> V -> Prop) (l m : list (langid * V)) : uniform srt ->
  Forall2 (fun a b => fst a = fst b /\ R (snd a) (snd b)) l m ->
  Forall2 (fun a b => fst a = fst b /\ R (snd a) (snd b)) (srt V l) (srt V m).
Proof.
  intros U F.
  assert (K : exists z : list (langid * {p : V * V | R (fst p) (snd p)}),
     l = List.map (on_value (fun p => fst (proj1_sig p))) z /\ m = List.map (on_value (fun p => snd (proj1_sig p))) z).
  { induction F as [|[k a] [k' b] l m [X Y] F (z & -> & ->)]; [now exists []|]. cbn in X, Y. subst k'.
    exists ((k, exist _ (a, b) Y) :: z). split; reflexivity. }
  destruct K as (z & -> & ->). rewrite !U. clear. induction (srt _ z) as [|[k [p H]] z' IH]; constructor; auto.
Qed.
Lemma parse_keys_same a b : Forall2 same_locale a b ->
  match parse_keys a, parse_keys b with
  | Ok l, Ok m => Forall2 (fun x y => fst x = fst y /\ Forall2 same_rule (snd x) (snd y)) l m
  | Panic v, Panic w => v = w
  | _, _ => False
  end.
Proof.
  induction 1 as [|[k v] [k' v'] a b [K V] F IH]; cbn [parse_keys]; [constructor|]. cbn [fst snd] in *. subst k'.
  destruct (bytes_eqb k (bs "root")) eqn:R; [exact IH|]. destruct V as [->|V]; [discriminate R|].
  destruct (langid_from_str k); cbn [unwrap rbind]; [|reflexivity].
  destruct (parse_keys a), (parse_keys b); try easy. cbn [rbind]. constructor; auto.
Qed.
Lemma same_type srt a b : uniform srt -> Forall2 same_locale a b -> gen_type_rs srt a = gen_type_rs srt b.
Proof.
  intros U F. apply parse_keys_same in F. unfold gen_type_rs. destruct (parse_keys a), (parse_keys b); try easy; [|now subst].
  cbn [rbind]. apply (@zip_sorted (bmap bytes) srt (Forall2 same_rule)) in F; [|auto]. revert F.
  generalize (srt (bmap bytes) a0) (srt (bmap bytes) a1). clear. intros L M F. induction F as [|[k r] [k' r'] L M [K R] F IH]; [reflexivity|]. cbn [fst snd] in *. subst k'.
  cbn [map_res]. rewrite IH, (same_lang _ _ R). reflexivity.
Qed.
Lemma same_part srt cur a b : uniform srt -> same_data a b -> gen_part srt cur a = gen_part srt cur b.
Proof.
  intros U S. destruct a as [a|], b as [b|]; try easy. cbn [same_data] in S. unfold gen_part. now rewrite (same_type srt a b U S).
Qed.
Lemma same_step srt st a b : uniform srt -> same_but_other a b -> gen_step srt st a = gen_step srt st b.
Proof.
  intros U (V & C & O). unfold gen_step. change (ve_cldr_version (su_version a)) with (version_of a). rewrite V.
  fold (version_of b). destruct (match g_version st with Some _ => _ | None => _ end); cbn [rbind]; try reflexivity.
  rewrite (same_part srt _ _ _ U C). destruct (gen_part srt (g_cardinal st) (su_cardinal b)); cbn [rbind]; try reflexivity.
  now rewrite (same_part srt _ _ _ U O).
Qed.
Lemma C57_text srt jsons jsons' rs rs' : uniform srt -> inputs_are jsons rs -> inputs_are jsons' rs' ->
  Forall2 same_but_other rs rs' -> generate_rs srt jsons = generate_rs srt jsons'.
Proof.
  intros U I I' F. unfold generate_rs, generate_tokens. f_equal.
  assert (K : forall st, gen_loop srt st jsons = gen_loop srt st jsons'); [|now rewrite K].
  revert jsons jsons' I I'. induction F as [|a b rs rs' S F IH]; intros jsons jsons' I I' st; inversion I as [|j ? js ? J1 J2]; subst; inversion I' as [|j' ? js' ? J1' J2']; subst; [reflexivity|].
  apply resource_text_iff in J1, J1'. cbn [gen_loop]. rewrite J1, J1'. cbn [unwrap rbind]. rewrite (same_step srt st a b U S). destruct (gen_step srt st b); cbn [rbind]; auto.
Qed.

(** ** C58, C59 *)
Lemma dec_inj a b : dec_of_N a = dec_of_N b -> a = b.
Proof.
  intros H. destruct (dec_of_N_spec a) as (_ & A & _). destruct (dec_of_N_spec b) as (_ & B & _). congruence.
Qed.
Lemma raw_inj n a b : tag_ok n a -> tag_ok n b -> (n <= 8)%nat -> raw_of_subtag a = raw_of_subtag b -> a = b.
Proof.
  intros A B L H. rewrite <- (tag_round a), <- (tag_round b), H; auto; now apply (tag_weaken n).
Qed.
Lemma C58_lemma a b ida idb : langid_from_str a = Some ida -> langid_from_str b = Some idb ->
  (gen_langid ida = gen_langid idb <-> drop_variants ida = drop_variants idb).
Proof.
  intros A B. apply langid_ok in A as (A1 & A2 & A3). apply langid_ok in B as (B1 & B2 & B3).
  destruct ida as [la sa ra va], idb as [lb sb rb vb]. unfold drop_variants, gen_langid. cbn [li_language li_script li_region] in *. split.
  2:{ intros H. injection H as -> -> ->. reflexivity. }
  intros H.
  assert (L : la = lb).
  { destruct la as [la|], lb as [lb|]; try reflexivity; try (exfalso; discriminate H).
    unfold raw_call, Par, lit_u64_suffixed in H. cbn [app] in H. injection H as H _.
    apply app_inv_tail in H. apply dec_inj in H. f_equal. now apply (raw_inj 8). }
  subst lb. assert (H' : forall (x y z w : list token), [I "langid"; P "!"; Par (x ++ y)] = [I "langid"; P "!"; Par (x ++ w)] -> y = w).
  { intros x y z w E. assert (Q : x ++ y = x ++ w) by (unfold Par in E; congruence). now apply app_inv_head in Q. }
  apply (H' _ _ []) in H. clear H'.
  assert (S : sa = sb).
  { destruct sa as [sa|], sb as [sb|]; try reflexivity; try (exfalso; discriminate H).
    unfold raw_call, Par, lit_u32_suffixed in H. cbn [app] in H. injection H as H _.
    apply app_inv_tail in H. apply dec_inj in H. f_equal. apply (raw_inj 4); auto. }
  subst sb. apply app_inv_head in H. apply app_inv_head in H. apply app_inv_head in H.
  destruct ra as [ra|], rb as [rb|]; try reflexivity; try (exfalso; discriminate H).
  unfold raw_call, Par, lit_u32_suffixed in H. injection H as H.
  apply app_inv_tail in H. apply dec_inj in H. repeat f_equal. apply (raw_inj 4); auto.
Qed.
Lemma C59_lemma key id : langid_from_str key = Some id ->
  (forall s, li_language id = Some s -> subtag_of_raw (raw_of_subtag s) = s /\ raw_of_subtag s < 2 ^ 64) /\
  (forall s, li_script id = Some s \/ li_region id = Some s -> subtag_of_raw (raw_of_subtag s) = s /\ raw_of_subtag s < 2 ^ 32).
Proof.
  intros H. apply langid_ok in H as (L & S & R). change (2 ^ 64) with (256 ^ N.of_nat 8). change (2 ^ 32) with (256 ^ N.of_nat 4). split.
  - intros s E. rewrite E in L. split; [now apply tag_round|now apply raw_fits].
  - intros s [E|E]; [rewrite E in S|rewrite E in R].
    + split; [apply tag_round; now apply (tag_weaken 4); [lia|]|now apply raw_fits].
    + split; [apply tag_round; now apply (tag_weaken 4); [lia|]|now apply raw_fits].
Qed.
End Width.
