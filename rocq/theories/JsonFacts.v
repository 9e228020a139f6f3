(** * Reordering the members of JSON objects *)
From Coq Require Import Lia Sorting.Permutation.
From Verif Require Import Base LangId Json DigitFacts LangIdFacts FileSpec MakeRules.
Open Scope N_scope.

Section Width.
Context {ptr : ptr_width}.

(** two values that differ only in the order of the members of objects whose
    keys are distinct *)
Inductive same_json : json -> json -> Prop :=
| same_refl j : same_json j j
| same_arr l m : Forall2 same_json l m -> same_json (JArr l) (JArr m)
| same_obj l m m' : NoDup (List.map fst l) ->
    Forall2 (fun a b => fst a = fst b /\ same_json (snd a) (snd b)) l m ->
    Permutation m m' -> same_json (JObj l) (JObj m').

Lemma insert_comm {V} k1 (v1 : V) k2 v2 m : k1 <> k2 ->
  bmap_insert k1 v1 (bmap_insert k2 v2 m) = bmap_insert k2 v2 (bmap_insert k1 v1 m).
Proof.
  intros N. destruct total_bytes as [EQ OP TR].
  assert (D : bytes_compare k1 k2 <> Eq) by (intros E; apply EQ in E; contradiction).
  assert (OPP : forall a b, bytes_compare b a = CompOpp (bytes_compare a b)) by (intros; apply OP).
  induction m as [|[k v] m IH]; cbn [bmap_insert].
  - rewrite (OPP k1 k2). destruct (bytes_compare k1 k2) eqn:E; cbn; try easy.
  - destruct (bytes_compare k2 k) eqn:E2, (bytes_compare k1 k) eqn:E1; cbn [bmap_insert]; rewrite ?E1, ?E2; try reflexivity.
    + apply EQ in E1, E2. congruence.
    + apply EQ in E2. subst k2. rewrite (OPP k1 k), E1. reflexivity.
    + apply EQ in E1. subst k1. rewrite (OPP k2 k), E2. reflexivity.
    + rewrite (OPP k1 k2). destruct (bytes_compare k1 k2) eqn:E; cbn [CompOpp]; rewrite ?E1, ?E2; easy.
    + assert (X : bytes_compare k2 k1 = Lt) by (apply (TR _ k); [auto|rewrite (OPP k1 k), E1; reflexivity]). rewrite (OPP k2 k1), X. reflexivity.
    + assert (X : bytes_compare k1 k2 = Lt) by (apply (TR _ k); [auto|rewrite (OPP k2 k), E2; reflexivity]). rewrite (OPP k1 k2), X. reflexivity.
    + now rewrite IH.
Qed.
Lemma members_perm {V} (f : json -> option V) l m : Permutation l m -> NoDup (List.map fst l) ->
  forall acc, de_map_members f acc l = de_map_members f acc m.
Proof.
  induction 1 as [|[k v] l m P IH|[k1 v1] [k2 v2] l|l m n P1 IH1 P2 IH2]; intros N acc; [reflexivity| | |].
  - inversion N; subst. cbn [de_map_members]. destruct k; [|reflexivity]. destruct (f v); auto.
  - cbn [List.map fst] in N. inversion N as [|? ? N1 N2]; subst.
    cbn [de_map_members]. destruct k1 as [k1|], k2 as [k2|]; try (destruct (f v1)); try (destruct (f v2)); try reflexivity.
    rewrite insert_comm; [reflexivity|]. intros ->. apply N1. now left.
  - rewrite IH1 by auto. apply IH2. exact (Permutation_NoDup (Permutation_map fst P1) N).
Qed.
Lemma members_same {V} (f : json -> option V) l m : (forall a b, same_json a b -> f a = f b) ->
  Forall2 (fun a b => fst a = fst b /\ same_json (snd a) (snd b)) l m ->
  forall acc, de_map_members f acc l = de_map_members f acc m.
Proof.
  intros H F. induction F as [|[k v] [k' v'] l m [X Y] F IH]; intros acc; [reflexivity|]. cbn [fst snd] in *. subst k'.
  cbn [de_map_members]. destruct k; [|reflexivity]. rewrite (H _ _ Y). destruct (f v'); auto.
Qed.
Lemma fst_same (l m : list (option bytes * json)) : Forall2 (fun a b => fst a = fst b /\ same_json (snd a) (snd b)) l m -> List.map fst l = List.map fst m.
Proof. induction 1 as [|a b l m [X Y] F IH]; [reflexivity|]. cbn [List.map]. now rewrite X, IH. Qed.
Lemma de_string_same a b : same_json a b -> de_string a = de_string b.
Proof. now destruct 1. Qed.
Lemma de_map_same {V} (f : json -> option V) a b : (forall a b, same_json a b -> f a = f b) -> same_json a b -> de_map f a = de_map f b.
Proof.
  intros H S. destruct S as [j|l m F|l m m' N F P]; [reflexivity|reflexivity|]. cbn [de_map].
  rewrite (members_same f l m H F). apply members_perm; [auto|]. now rewrite <- (fst_same l m F).
Qed.
Lemma de_option_same {A} (f : json -> option A) a b : (forall a b, same_json a b -> f a = f b) -> same_json a b -> de_option f a = de_option f b.
Proof.
  intros H S. pose proof (H _ _ S) as E. destruct S; [reflexivity| |]; cbn [de_option]; now rewrite E.
Qed.
Lemma de_rule_map_same a b : same_json a b -> de_rule_map a = de_rule_map b.
Proof. apply de_map_same. intros x y. apply de_map_same. exact de_string_same. Qed.
Lemma keys_ok_perm l m : Permutation l m -> keys_ok l = keys_ok m.
Proof.
  intros P. unfold keys_ok. apply Bool.eq_iff_eq_true. rewrite !forallb_forall.
  split; intros H x I; apply H; [apply (Permutation_in _ (Permutation_sym P))|apply (Permutation_in _ P)]; auto.
Qed.
Lemma keys_ok_same l m : Forall2 (fun a b => fst a = fst b /\ same_json (snd a) (snd b)) l m -> keys_ok l = keys_ok m.
Proof.
  induction 1 as [|[k v] [k' v'] l m [X Y] F IH]; [reflexivity|]. cbn [fst] in X. subst k'. unfold keys_ok in *. cbn [forallb]. now rewrite IH.
Qed.
Lemma field_none name l : ~ In (Some name) (List.map fst l) -> field_values name l = [].
Proof.
  unfold field_values. induction l as [|[k v] l IH]; [reflexivity|]. cbn [List.map fst flat_map]. intros N.
  rewrite IH by (intro; apply N; now right). destruct k as [k|]; [|reflexivity].
  destruct (bytes_eqb k name) eqn:E; [|reflexivity]. apply bytes_eqb_eq in E. subst. exfalso. apply N. now left.
Qed.
Lemma field_short name l : NoDup (List.map fst l) -> (List.length (field_values name l) <= 1)%nat.
Proof.
  induction l as [|[k v] l IH]; cbn [List.map fst]; intros N; [cbn; lia|]. inversion N as [|? ? N1 N2]; subst.
  unfold field_values. cbn [flat_map]. fold (field_values name l). destruct k as [k|]; [|now apply IH].
  destruct (bytes_eqb k name) eqn:E; [|now apply IH]. apply bytes_eqb_eq in E. subst. rewrite field_none by auto. cbn. lia.
Qed.
Lemma short_perm {A} (l m : list A) : Permutation l m -> (List.length l <= 1)%nat -> l = m.
Proof.
  intros P L. destruct l as [|x [|y l]]; [now apply Permutation_nil in P| |cbn in L; lia]. now apply Permutation_length_1_inv in P.
Qed.
Lemma field_same name l m m' : NoDup (List.map fst l) ->
  Forall2 (fun a b => fst a = fst b /\ same_json (snd a) (snd b)) l m -> Permutation m m' ->
  Forall2 same_json (field_values name l) (field_values name m').
Proof.
  intros N F P.
  assert (E : field_values name m = field_values name m').
  { apply short_perm; [now apply Permutation_flat_map|]. apply field_short. now rewrite <- (fst_same l m F). }
  rewrite <- E. clear - F. unfold field_values. induction F as [|[k v] [k' v'] l m [X Y] F IH]; [constructor|]. cbn [fst snd] in *. subst k'.
  cbn [flat_map]. apply Forall2_app; [|exact IH]. destruct k as [k|]; [|constructor]. destruct (bytes_eqb k name); repeat constructor; auto.
Qed.
Lemma req_same {A} (f : json -> option A) vs ws : (forall a b, same_json a b -> f a = f b) -> Forall2 same_json vs ws -> req f vs = req f ws.
Proof. intros H F. destruct F as [|a b vs ws X F]; [reflexivity|]. destruct F; [now apply H|reflexivity]. Qed.
Lemma optional_same {A} (f : json -> option A) vs ws : (forall a b, same_json a b -> f a = f b) -> Forall2 same_json vs ws -> optional f vs = optional f ws.
Proof. intros H F. destruct F as [|a b vs ws X F]; [reflexivity|]. destruct F; [|reflexivity]. now apply de_option_same. Qed.
Lemma de_version_same a b : same_json a b -> de_version a = de_version b.
Proof.
  destruct 1 as [j|l m F|l m m' N F P]; [reflexivity| |].
  - unfold de_version. destruct F as [|x1 y1 l m X1 F]; [reflexivity|]. destruct F as [|x2 y2 l m X2 F]; [reflexivity|].
    destruct F as [|x3 y3 l m X3 F]; [reflexivity|]. destruct F; [|reflexivity].
    now rewrite (de_option_same de_string x1 y1 de_string_same X1), (de_string_same _ _ X2), (de_string_same _ _ X3).
  - unfold de_version. rewrite (keys_ok_same _ _ F), (keys_ok_perm _ _ P). destruct (keys_ok m'); [|reflexivity].
    rewrite (optional_same de_string _ _ de_string_same (field_same (bs "_number") _ _ _ N F P)).
    rewrite (req_same de_string _ _ de_string_same (field_same (bs "_unicodeVersion") _ _ _ N F P)).
    now rewrite (req_same de_string _ _ de_string_same (field_same (bs "_cldrVersion") _ _ _ N F P)).
Qed.
Lemma de_supplemental_same a b : same_json a b -> de_supplemental a = de_supplemental b.
Proof.
  destruct 1 as [j|l m F|l m m' N F P]; [reflexivity| |].
  - unfold de_supplemental. destruct F as [|x1 y1 l m X1 F]; [reflexivity|]. destruct F as [|x2 y2 l m X2 F]; [reflexivity|].
    destruct F as [|x3 y3 l m X3 F]; [reflexivity|]. destruct F; [|reflexivity].
    now rewrite (de_version_same _ _ X1), (de_option_same de_rule_map _ _ de_rule_map_same X2), (de_option_same de_rule_map _ _ de_rule_map_same X3).
  - unfold de_supplemental. rewrite (keys_ok_same _ _ F), (keys_ok_perm _ _ P). destruct (keys_ok m'); [|reflexivity].
    rewrite (req_same de_version _ _ de_version_same (field_same (bs "version") _ _ _ N F P)).
    rewrite (optional_same de_rule_map _ _ de_rule_map_same (field_same (bs "plurals-type-cardinal") _ _ _ N F P)).
    now rewrite (optional_same de_rule_map _ _ de_rule_map_same (field_same (bs "plurals-type-ordinal") _ _ _ N F P)).
Qed.
Lemma de_resource_same a b : same_json a b -> de_resource a = de_resource b.
Proof.
  destruct 1 as [j|l m F|l m m' N F P]; [reflexivity| |].
  - unfold de_resource. destruct F as [|x1 y1 l m X1 F]; [reflexivity|]. destruct F; [|reflexivity]. now apply de_supplemental_same.
  - unfold de_resource. rewrite (keys_ok_same _ _ F), (keys_ok_perm _ _ P). destruct (keys_ok m'); [|reflexivity].
    exact (req_same de_supplemental _ _ de_supplemental_same (field_same (bs "supplemental") _ _ _ N F P)).
Qed.

Definition same_text (a b : bytes) : Prop :=
  exists x y, json_from_str a = Some x /\ json_from_str b = Some y /\ same_json x y.
Lemma C56_lemma srt js js' : Forall2 same_text js js' -> generate_rs srt js = generate_rs srt js'.
Proof.
  intros F. unfold generate_rs, generate_tokens. f_equal. f_equal. generalize (mkGen None None None).
  induction F as [|a b js js' (x & y & A & B & S) F IH]; intros st; [reflexivity|]. cbn [gen_loop].
  assert (E : parse_plurals_resource_from_string a = parse_plurals_resource_from_string b).
  { unfold parse_plurals_resource_from_string. rewrite A, B. now apply de_resource_same. }
  rewrite E. destruct (unwrap _ _); cbn [rbind]; try reflexivity. destruct (gen_step srt st _); cbn [rbind]; auto.
Qed.
End Width.
