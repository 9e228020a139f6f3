(** * Deserialisation against its specification *)
From Coq Require Import Lia Sorted.
From Verif Require Import Base DigitFacts LangId LangIdFacts Json JsonSpec JsonGram.
Open Scope N_scope.

Lemma before_iff a b : bytes_compare a b = Lt <-> before a b.
Proof.
  split.
  - revert b. induction a as [|x a IH]; intros [|y b] H; cbn in H; try discriminate; [constructor|].
    destruct (N.compare x y) eqn:E; [|constructor; now apply N.compare_lt_iff|discriminate].
    apply N.compare_eq_iff in E. subst y. apply bf_same. now apply IH.
  - induction 1 as [c b|x y a b L|x a b H IH]; cbn; [reflexivity| |].
    + apply N.compare_lt_iff in L. now rewrite L.
    + now rewrite N.compare_refl.
Qed.

(** ** Maps *)
Definition key_lt {V} (x y : bytes * V) : Prop := before (fst x) (fst y).
Lemma before_trans a b c : before a b -> before b c -> before a c.
Proof. rewrite <- !before_iff. apply (tc_trans _ total_bytes). Qed.
Lemma before_irrefl a : ~ before a a.
Proof. rewrite <- before_iff. assert (E : bytes_compare a a = Eq) by now apply bytes_compare_eq. rewrite E. discriminate. Qed.
Lemma increase_sorted {V} (m : list (bytes * V)) : keys_increase m <-> StronglySorted key_lt m.
Proof.
  split.
  - intros H. apply Sorted_StronglySorted; [intros a b c; apply before_trans|].
    induction m as [|[a x] m IH]; [constructor|]. destruct m as [|[b y] m].
    + repeat constructor.
    + cbn [keys_increase] in H. destruct H as [L H]. constructor; [now apply IH|]. now constructor.
  - induction 1 as [|[a x] m S IH F]; [exact Logic.I|]. destruct m as [|[b y] m]; [exact Logic.I|].
    cbn [keys_increase]. split; [|exact IH]. now inversion F.
Qed.
Lemma sorted_unique {V} (m m' : list (bytes * V)) : StronglySorted key_lt m -> StronglySorted key_lt m' ->
  (forall e, In e m <-> In e m') -> m = m'.
Proof.
  intros S. revert m'. induction S as [|a m S IH F]; intros m' S' E.
  - destruct m' as [|b m']; [reflexivity|]. destruct (proj2 (E b)). now left.
  - destruct S' as [|b m' S' F']; [destruct (proj1 (E a)); now left|].
    rewrite Forall_forall in F, F'. assert (a = b).
    { destruct (proj1 (E a)) as [Hb|Hb]; [now left|congruence|]. destruct (proj2 (E b)) as [Ha|Ha]; [now left|congruence|].
      destruct (before_irrefl (fst a)). eapply before_trans; [apply (F _ Ha)|apply (F' _ Hb)]. }
    subst b. f_equal. apply IH; [exact S'|]. intros e. split; intros H.
    + destruct (proj1 (E e)) as [<-|G]; [now right| |exact G]. destruct (before_irrefl (fst a)). apply (F _ H).
    + destruct (proj2 (E e)) as [<-|G]; [now right| |exact G]. destruct (before_irrefl (fst a)). apply (F' _ H).
Qed.
Lemma insert_in {V} k (v : V) m : StronglySorted key_lt m ->
  forall k' v', In (k', v') (bmap_insert k v m) <-> (k' = k /\ v' = v) \/ (k' <> k /\ In (k', v') m).
Proof.
  intros S k' v'. induction S as [|[a x] m S IH F]; cbn [bmap_insert].
  - cbn. split; [intros [E|[]]; left; split; congruence|intros [[-> ->]|[_ []]]; now left].
  - rewrite Forall_forall in F. destruct (bytes_compare k a) eqn:C.
    + apply bytes_compare_eq in C. subst a. cbn [In]. split.
      * intros [E|H]; [left; split; congruence|]. right. split; [|now right]. intros ->. destruct (before_irrefl k). apply (F _ H).
      * intros [[-> ->]|[N [E|H]]]; [now left|congruence|now right].
    + apply before_iff in C. split.
      * intros [E|H]; [left; split; congruence|]. right. split; [|exact H]. intros ->. destruct H as [E|H].
        -- destruct (before_irrefl a). congruence.
        -- destruct (before_irrefl k). eapply before_trans; [exact C|apply (F _ H)].
      * intros [[-> ->]|[N H]]; [now left|now right].
    + cbn [In]. rewrite IH. assert (N : a <> k) by (intros ->; rewrite (proj2 (bytes_compare_eq k k) eq_refl) in C; discriminate).
      intuition congruence.
Qed.
Lemma insert_sorted {V} k (v : V) m : StronglySorted key_lt m -> StronglySorted key_lt (bmap_insert k v m).
Proof.
  intros S. induction S as [|[a x] m S IH F]; cbn [bmap_insert]; [repeat constructor|].
  destruct (bytes_compare k a) eqn:C.
  - apply bytes_compare_eq in C. subst a. constructor; [exact S|exact F].
  - apply before_iff in C. constructor; [now constructor|]. constructor; [exact C|].
    eapply Forall_impl; [|exact F]. intros e H. eapply before_trans; [exact C|exact H].
  - constructor; [exact IH|]. rewrite Forall_forall in *. intros [k' v'] H. apply insert_in in H; [|exact S].
    destruct H as [[-> ->]|[_ H]]; [|now apply F]. unfold key_lt. cbn [fst]. apply before_iff.
    rewrite (tc_anti _ total_bytes k a), C. reflexivity.
Qed.
Definition inserts {V} (kvs : list (bytes * V)) (m : bmap V) : bmap V := fold_left (fun m kv => bmap_insert (fst kv) (snd kv) m) kvs m.
Lemma inserts_spec {V} (kvs : list (bytes * V)) : forall m, StronglySorted key_lt m ->
  StronglySorted key_lt (inserts kvs m) /\
  forall k v, In (k, v) (inserts kvs m) <-> last_value kvs k v \/ (~ In k (List.map fst kvs) /\ In (k, v) m).
Proof.
  induction kvs as [|[a x] kvs IH]; intros m S.
  - split; [exact S|]. intros k v. cbn. split; [intros H; right; auto|].
    intros [(p & q & E & _)|[_ H]]; [destruct p; discriminate|exact H].
  - destruct (IH (bmap_insert a x m) (insert_sorted a x m S)) as [S' I']. split; [exact S'|].
    intros k v. unfold inserts in *. cbn [fold_left fst snd]. rewrite I', insert_in by exact S. clear I' S' IH.
    cbn [List.map fst In]. split.
    + intros [(p & q & -> & N)|[N [[-> ->]|[D H]]]].
      * left. exists ((a, x) :: p), q. auto.
      * left. exists [], kvs. auto.
      * right. split; [intros [->|H']; [congruence|contradiction]|exact H].
    + intros [(p & q & E & N)|[N H]].
      * destruct p as [|e p]; cbn in E.
        -- injection E as <- <- <-. right. split; [exact N|]. now left.
        -- injection E as <- ->. left. exists p, q. auto.
      * right. split; [tauto|]. right. split; [intros ->; tauto|exact H].
Qed.
Lemma de_map_members_iff {V} (f : json -> option V) l : forall acc m,
  de_map_members f acc l = Some m <->
  exists kvs, Forall2 (fun kj kv => fst kj = Some (fst kv) /\ f (snd kj) = Some (snd kv)) l kvs /\ m = inserts kvs acc.
Proof.
  induction l as [|[[k|] j] l IH]; intros acc m; cbn [de_map_members].
  - split; [intros H; exists []; split; [constructor|cbn; congruence]|].
    intros (kvs & F & ->). inversion F. reflexivity.
  - destruct (f j) as [x|] eqn:E.
    + rewrite IH. split.
      * intros (kvs & F & ->). exists ((k, x) :: kvs). split; [constructor; [split; [reflexivity|exact E]|exact F]|reflexivity].
      * intros (kvs & F & ->). inversion F as [|? [k' x'] ? kvs' [A B] F']; subst. cbn [fst snd] in *. exists kvs'. split; [exact F'|].
        assert (k' = k) by congruence. assert (x' = x) by congruence. subst. reflexivity.
    + split; [discriminate|]. intros (kvs & F & _). inversion F as [|? kv ? kvs' [A B] F']. cbn [fst snd] in *. congruence.
  - split; [discriminate|]. intros (kvs & F & _). inversion F as [|? kv ? kvs' [A B] F']. cbn [fst snd] in *. congruence.
Qed.
Lemma Forall2_iff {A B} (P Q : A -> B -> Prop) l m : (forall a b, P a b <-> Q a b) -> Forall2 P l m <-> Forall2 Q l m.
Proof. intros E. split; induction 1; constructor; auto; now apply E. Qed.
Lemma de_map_iff {V} (f : json -> option V) (P : json -> V -> Prop) : (forall j x, f j = Some x <-> P j x) ->
  forall j m, de_map f j = Some m <-> is_map P j m.
Proof.
  intros E j m. unfold is_map. destruct j as [ |b| |s|l|l]; cbn [de_map];
    try (split; [discriminate|intros (l' & kvs & J & _); discriminate]).
  rewrite de_map_members_iff. split.
  - intros (kvs & F & ->). exists l, kvs. split; [reflexivity|]. split.
    { eapply Forall2_iff; [|exact F]. intros a b; split; intros [G1 G2]; (split; [exact G1|now apply E]). }
    destruct (inserts_spec kvs [] (SSorted_nil _)) as [S I']. split; [now apply increase_sorted|].
    intros k v. rewrite I'. cbn. tauto.
  - intros (l' & kvs & J & F & S & I'). injection J as <-. exists kvs. split.
    { eapply Forall2_iff; [|exact F]. intros a b; split; intros [G1 G2]; (split; [exact G1|now apply E]). }
    apply increase_sorted in S. destruct (inserts_spec kvs [] (SSorted_nil _)) as [S2 I2].
    apply sorted_unique; [exact S|exact S2|]. intros [k v]. rewrite I', I2. cbn. tauto.
Qed.

(** ** Fields *)
Lemma keys_ok_iff l : keys_ok l = true <-> keys_are_text l.
Proof.
  unfold keys_ok, keys_are_text. rewrite forallb_forall, Forall_forall. split; intros H [k j] I'; specialize (H _ I'); destruct k; cbn in *; congruence.
Qed.
Lemma values_none name l : field_values name l = [] <-> occurs_not name l.
Proof.
  unfold occurs_not. induction l as [|[[k|] j] l IH]; cbn [field_values flat_map List.map fst In].
  - tauto.
  - change (flat_map _ l) with (field_values name l). destruct (bytes_eqb k name) eqn:E.
    + apply bytes_eqb_eq in E. subst k. split; [discriminate|]. intros H. destruct H. now left.
    + cbn [app]. rewrite IH. split; [|tauto]. intros H [G|G]; [|tauto]. assert (k = name) by congruence. subst k.
      assert (bytes_eqb name name = true) by now apply bytes_eqb_eq. congruence.
  - change (flat_map _ l) with (field_values name l). cbn [app]. rewrite IH. split; [|tauto]. intros H [G|G]; [discriminate|tauto].
Qed.
Lemma values_app name a b : field_values name (a ++ b) = field_values name a ++ field_values name b.
Proof. apply flat_map_app. Qed.
Lemma values_hit name j l : field_values name ((Some name, j) :: l) = j :: field_values name l.
Proof. unfold field_values. cbn [flat_map]. now replace (bytes_eqb name name) with true by (symmetry; now apply bytes_eqb_eq). Qed.
Lemma values_once name l j : field_values name l = [j] <-> field_once name l j.
Proof.
  unfold field_once. split.
  - induction l as [|[k x] l IH]; [discriminate|]. intros H.
    assert (D : k = Some name \/ occurs_not name [(k, x)]).
    { unfold occurs_not. cbn. destruct k as [k|]; [|right; intros [G|[]]; discriminate].
      destruct (bytes_eqb k name) eqn:E; [left; f_equal; now apply bytes_eqb_eq|]. right. intros [G|[]].
      assert (k = name) by congruence. subst k. assert (bytes_eqb name name = true) by now apply bytes_eqb_eq. congruence. }
    destruct D as [-> |D].
    + rewrite values_hit in H. exists [], l. assert (x = j) by congruence. subst x. split; [reflexivity|]. split; [intros []|].
      apply values_none. congruence.
    + change ((k, x) :: l) with ([(k, x)] ++ l) in H. rewrite values_app in H. rewrite (proj2 (values_none _ _) D) in H.
      destruct (IH H) as (a & b & -> & A & B). exists ((k, x) :: a), b. split; [reflexivity|]. split; [|exact B].
      unfold occurs_not in *. cbn in *. tauto.
  - intros (a & b & -> & A & B). rewrite values_app, values_hit. now rewrite (proj2 (values_none _ _) A), (proj2 (values_none _ _) B).
Qed.
Lemma de_string_iff j s : de_string j = Some s <-> stext j s.
Proof. unfold stext. destruct j; cbn; split; intros H; congruence. Qed.
Lemma de_option_iff {A} (f : json -> option A) P : (forall j x, f j = Some x <-> P j x) ->
  forall j o, de_option f j = Some o <-> nullable P j o.
Proof.
  intros E j o. unfold nullable. assert (D : j = JNull \/ j <> JNull) by (destruct j; (left; reflexivity) || (right; discriminate)).
  destruct D as [-> |D].
  - cbn. split; [intros H; left; split; congruence|]. intros [[_ ->]|[H _]]; [reflexivity|congruence].
  - assert (R : de_option f j = option_map Some (f j)) by (destruct j; reflexivity || congruence). rewrite R. split.
    + destruct (f j) as [x|] eqn:F; [|discriminate]. intros H. right. split; [exact D|]. exists x. split; [now apply E|]. cbn in H. congruence.
    + intros [[H _]|[_ (x & H & ->)]]; [contradiction|]. apply E in H. now rewrite H.
Qed.
Lemma req_iff {A} (f : json -> option A) P : (forall j x, f j = Some x <-> P j x) ->
  forall name l x, req f (field_values name l) = Some x <-> required P name l x.
Proof.
  intros E name l x. unfold required. split.
  - destruct (field_values name l) as [|j [|j' r]] eqn:F; try discriminate. cbn [req]. intros H.
    exists j. split; [now apply values_once|now apply E].
  - intros (j & F & H). apply values_once in F. rewrite F. now apply E.
Qed.
Lemma optional_iff {A} (f : json -> option A) P : (forall j x, f j = Some x <-> P j x) ->
  forall name l o, optional f (field_values name l) = Some o <-> optionally P name l o.
Proof.
  intros E name l o. unfold optionally. split.
  - destruct (field_values name l) as [|j [|j' r]] eqn:F; try discriminate; cbn [optional]; intros H.
    + left. split; [now apply values_none|congruence].
    + right. exists j. split; [now apply values_once|]. now apply (de_option_iff f P E).
  - intros [[F ->]|(j & F & H)].
    + apply values_none in F. now rewrite F.
    + apply values_once in F. rewrite F. now apply (de_option_iff f P E).
Qed.

(** ** The structs *)
Lemma three {A B C D} (a : option A) (b : option B) (c : option C) (k : A -> B -> C -> D) (d : D) :
  match a, b, c with Some a, Some b, Some c => Some (k a b c) | _, _, _ => None end = Some d <->
  exists x y z, a = Some x /\ b = Some y /\ c = Some z /\ d = k x y z.
Proof.
  destruct a as [x|], b as [y|], c as [z|]; split; try discriminate; try (intros (? & ? & ? & ? & ? & ? & ?); discriminate).
  - intros H. exists x, y, z. repeat split. congruence.
  - intros (x' & y' & z' & A' & B' & C' & ->). congruence.
Qed.
Lemma de_version_iff j v : de_version j = Some v <-> is_version j v.
Proof.
  unfold is_version. split.
  - destruct j as [ |b| |s|l|l]; try discriminate.
    + destruct l as [|a [|b [|c [|d l]]]]; try discriminate. intros H. right. exists a, b, c. split; [reflexivity|].
      apply three in H as (x & y & z & A & B & C & ->). cbn [ve_number ve_unicode_version ve_cldr_version].
      split; [now apply (de_option_iff _ _ de_string_iff)|]. split; now apply de_string_iff.
    + cbn [de_version]. destruct (keys_ok l) eqn:K; [|discriminate]. intros H. left. exists l. split; [reflexivity|].
      split; [now apply keys_ok_iff|]. apply three in H as (x & y & z & A & B & C & ->). cbn [ve_number ve_unicode_version ve_cldr_version].
      split; [now apply (optional_iff _ _ de_string_iff)|]. split; now apply (req_iff _ _ de_string_iff).
  - intros [(l & -> & K & A & B & C)|(a & b & c & -> & A & B & C)].
    + cbn [de_version]. apply keys_ok_iff in K. rewrite K. apply three. exists (ve_number v), (ve_unicode_version v), (ve_cldr_version v).
      split; [now apply (optional_iff _ _ de_string_iff)|]. split; [now apply (req_iff _ _ de_string_iff)|].
      split; [now apply (req_iff _ _ de_string_iff)|]. now destruct v.
    + cbn [de_version]. apply three. exists (ve_number v), (ve_unicode_version v), (ve_cldr_version v).
      split; [now apply (de_option_iff _ _ de_string_iff)|]. split; [now apply de_string_iff|].
      split; [now apply de_string_iff|]. now destruct v.
Qed.
Lemma de_rule_map_iff j m : de_rule_map j = Some m <-> is_rules j m.
Proof. unfold de_rule_map, is_rules. apply de_map_iff, de_map_iff, de_string_iff. Qed.
Lemma de_supplemental_iff j s : de_supplemental j = Some s <-> is_supplemental j s.
Proof.
  unfold is_supplemental. split.
  - destruct j as [ |b| |t|l|l]; try discriminate.
    + destruct l as [|a [|b [|c [|d l]]]]; try discriminate. intros H. right. exists a, b, c. split; [reflexivity|].
      apply three in H as (x & y & z & A & B & C & ->). cbn [su_version su_cardinal su_ordinal].
      split; [now apply de_version_iff|]. split; now apply (de_option_iff _ _ de_rule_map_iff).
    + cbn [de_supplemental]. destruct (keys_ok l) eqn:K; [|discriminate]. intros H. left. exists l. split; [reflexivity|].
      split; [now apply keys_ok_iff|]. apply three in H as (x & y & z & A & B & C & ->). cbn [su_version su_cardinal su_ordinal].
      split; [now apply (req_iff _ _ de_version_iff)|]. split; now apply (optional_iff _ _ de_rule_map_iff).
  - intros [(l & -> & K & A & B & C)|(a & b & c & -> & A & B & C)].
    + cbn [de_supplemental]. apply keys_ok_iff in K. rewrite K. apply three. exists (su_version s), (su_cardinal s), (su_ordinal s).
      split; [now apply (req_iff _ _ de_version_iff)|]. split; [now apply (optional_iff _ _ de_rule_map_iff)|].
      split; [now apply (optional_iff _ _ de_rule_map_iff)|]. now destruct s.
    + cbn [de_supplemental]. apply three. exists (su_version s), (su_cardinal s), (su_ordinal s).
      split; [now apply de_version_iff|]. split; [now apply (de_option_iff _ _ de_rule_map_iff)|].
      split; [now apply (de_option_iff _ _ de_rule_map_iff)|]. now destruct s.
Qed.
Lemma de_resource_iff j s : de_resource j = Some s <-> is_resource j s.
Proof.
  unfold is_resource. split.
  - destruct j as [ |b| |t|l|l]; try discriminate.
    + destruct l as [|a [|b l]]; try discriminate. cbn [de_resource]. intros H. right. exists a. split; [reflexivity|now apply de_supplemental_iff].
    + cbn [de_resource]. destruct (keys_ok l) eqn:K; [|discriminate]. intros H. left. exists l. split; [reflexivity|].
      split; [now apply keys_ok_iff|now apply (req_iff _ _ de_supplemental_iff)].
  - intros [(l & -> & K & A)|(a & -> & A)]; cbn [de_resource].
    + apply keys_ok_iff in K. rewrite K. now apply (req_iff _ _ de_supplemental_iff).
    + now apply de_supplemental_iff.
Qed.
Lemma resource_text_iff s r : parse_plurals_resource_from_string s = Some r <-> resource_text s r.
Proof.
  unfold parse_plurals_resource_from_string, resource_text. split.
  - destruct (json_from_str s) as [j|] eqn:J; [|discriminate]. intros H. exists j. split; [now apply json_from_str_iff|now apply de_resource_iff].
  - intros (j & J & H). apply json_from_str_iff in J. rewrite J. now apply de_resource_iff.
Qed.
