(** * What is written is read back (C111) *)
From Coq Require Import Sorted.
From Verif Require Import Base LangId Json JsonSpec JsonDe JsonSer MakeRules FileSpec.
Open Scope N_scope.

Lemma lower_hex_digit k : k < 16 -> hexdigit (lower_hex k) k.
Proof. intro H. unfold lower_hex. destruct (N.ltb_spec k 10); constructor; lia. Qed.
Lemma char_unit b : exists u t, utext u (ser_char b) /\ (forall us o, decodes us o -> decodes (u :: us) (option_map (app t) o)) /\ t = [b].
Proof.
  unfold ser_char.
  repeat match goal with |- context [b =? ?k] => destruct (N.eqb_spec b k) as [->|?];
    [eexists (UByte _), _; split; [apply ut_esc; cbn [In]; tauto|]; split; [|reflexivity];
     intros us o D; now apply de_byte|] end.
  destruct (N.ltb_spec b 32).
  - exists (UCode (4096 * 0 + 256 * 0 + 16 * (b / 16) + b mod 16)), [b]. split.
    { apply ut_code; [apply (hx_digit 0); lia|apply (hx_digit 0); lia| |]; apply lower_hex_digit.
      - apply N.div_lt_upper_bound; lia.
      - apply N.mod_lt; lia. }
    split; [|reflexivity]. replace (4096 * 0 + 256 * 0 + 16 * (b / 16) + b mod 16) with b by (pose proof (N.div_mod b 16); lia).
    intros us o D. apply de_bmp; auto; [unfold high; lia|unfold low; lia|]. apply u1. lia.
  - exists (UByte b), [b]. split; [now apply ut_plain|]. split; [|reflexivity]. intros us o D. now apply de_byte.
Qed.
Lemma string_text s : jstring (Some s) (ser_string s).
Proof.
  assert (K : exists us, utexts us (flat_map ser_char s) /\ decodes us (Some s)).
  { induction s as [|b s (us & U & D)]; [exists []; split; constructor|].
    destruct (char_unit b) as (u & t & Ut & De & ->). exists (u :: us). split; [now constructor|]. exact (De us _ D). }
  destruct K as (us & U & D). exact (js us (Some s) _ U D).
Qed.
Lemma members_text {V} (f : V -> bytes) (g : V -> json) m : (forall k v, In (k, v) m -> jval (g v) (f v)) -> m <> [] ->
  jmembers (List.map (fun kv => (Some (fst kv), g (snd kv))) m) (ser_members f m).
Proof.
  induction m as [|[k v] m IH]; intros H N; [easy|].
  assert (M : jmember (Some k, g v) (ser_string k ++ 58 :: f v)).
  { pose proof (jm (Some k) (g v) [] (ser_string k) [] [] (f v) [] (Forall_nil _) (string_text k) (Forall_nil _) (Forall_nil _) (H k v (or_introl eq_refl)) (Forall_nil _)) as J.
    cbn [app] in J. now rewrite app_nil_r in J. }
  destruct m as [|[k' v'] m]; [now constructor|].
  change (ser_members f ((k, v) :: (k', v') :: m)) with (ser_string k ++ 58 :: f v ++ 44 :: ser_members f ((k', v') :: m)).
  replace (ser_string k ++ 58 :: f v ++ 44 :: ser_members f ((k', v') :: m)) with ((ser_string k ++ 58 :: f v) ++ 44 :: ser_members f ((k', v') :: m))
    by (rewrite <- app_assoc; reflexivity).
  apply (jm_more (Some k, g v)); [exact M|]. apply IH; [|easy]. intros a b I. apply (H a). now right.
Qed.
Lemma map_text {V} (f : V -> bytes) (g : V -> json) m : (forall k v, In (k, v) m -> jval (g v) (f v)) ->
  jval (JObj (List.map (fun kv => (Some (fst kv), g (snd kv))) m)) (ser_map f m).
Proof.
  intro H. destruct m as [|p m]; [apply (jv_obj0 []); constructor|]. apply jv_obj. now apply members_text.
Qed.

(** the JSON values *)
Definition j_string (s : bytes) : json := JStr (Some s).
Definition j_option {A} (f : A -> json) (o : option A) : json := match o with Some x => f x | None => JNull end.
Definition j_map {V} (g : V -> json) (m : bmap V) : json := JObj (List.map (fun kv => (Some (fst kv), g (snd kv))) m).
Definition j_struct (l : list (string * json)) : json := JObj (List.map (fun p => (Some (bs (fst p)), snd p)) l).
Definition j_version (v : version) : json :=
  j_struct [("_number"%string, j_option j_string (ve_number v)); ("_unicodeVersion"%string, j_string (ve_unicode_version v)); ("_cldrVersion"%string, j_string (ve_cldr_version v))].
Definition j_supplemental (s : supplemental) : json :=
  j_struct [("version"%string, j_version (su_version s)); ("plurals-type-cardinal"%string, j_option (j_map (j_map j_string)) (su_cardinal s));
            ("plurals-type-ordinal"%string, j_option (j_map (j_map j_string)) (su_ordinal s))].
Definition j_resource (r : supplemental) : json := j_struct [("supplemental"%string, j_supplemental r)].
Lemma j_string_text s : jval (j_string s) (ser_string s).
Proof. apply jv_str, string_text. Qed.
Lemma j_option_text {A} (f : A -> json) g (o : option A) : (forall x, o = Some x -> jval (f x) (g x)) -> jval (j_option f o) (ser_option g o).
Proof. destruct o; cbn; intro H; [now apply H|constructor]. Qed.
Lemma j_struct_text l t : Forall2 (fun a b => fst a = fst b /\ jval (snd a) (snd b)) l t -> jval (j_struct l) (ser_struct t).
Proof.
  intro F. unfold ser_struct, j_struct.
  assert (K : forall (l' : list (string * json)) (t' : list (string * bytes)), Forall2 (fun a b => fst a = fst b /\ jval (snd a) (snd b)) l' t' -> l' <> [] ->
    jmembers (List.map (fun p => (Some (bs (fst p)), snd p)) l') (ser_members (fun t => t) (List.map (fun p => (bs (fst p), snd p)) t'))).
  { clear. induction 1 as [|[k v] [k' v'] l t [E J] F IH]; [easy|]. intros _. cbn [fst snd] in *. subst k'.
    assert (M : jmember (Some (bs k), v) (ser_string (bs k) ++ 58 :: v')).
    { pose proof (jm (Some (bs k)) v [] (ser_string (bs k)) [] [] v' [] (Forall_nil _) (string_text _) (Forall_nil _) (Forall_nil _) J (Forall_nil _)) as Q.
      cbn [app] in Q. now rewrite app_nil_r in Q. }
    destruct F as [|[a b] [a' b'] l t X F]; [now constructor|]. cbn [List.map fst snd] in *.
    change (ser_members (fun t => t) ((bs k, v') :: (bs a', b') :: List.map (fun p => (bs (fst p), snd p)) t)) with
      (ser_string (bs k) ++ 58 :: v' ++ 44 :: ser_members (fun t => t) ((bs a', b') :: List.map (fun p => (bs (fst p), snd p)) t)).
    match goal with |- jmembers _ (?x ++ 58 :: ?y ++ ?z) => replace (x ++ 58 :: y ++ z) with ((x ++ 58 :: y) ++ z) by (rewrite <- app_assoc; reflexivity) end.
    apply jm_more; [exact M|]. apply IH. easy. }
  destruct F as [|a b l t X F]; [apply (jv_obj0 []); constructor|]. apply jv_obj. apply (K (a :: l) (b :: t)); [now constructor|easy].
Qed.
Lemma j_rules_text m : jval (j_map (j_map j_string) m) (ser_rule_map m).
Proof. apply map_text. intros k v _. apply map_text. intros k' v' _. apply j_string_text. Qed.
Lemma j_resource_text r : jval (j_resource r) (ser_resource r).
Proof.
  assert (V : jval (j_version (su_version r)) (ser_version (su_version r))).
  { apply j_struct_text. apply Forall2_cons; [split; [reflexivity|]; apply j_option_text; intros; apply j_string_text|].
    apply Forall2_cons; [split; [reflexivity|]; apply j_string_text|].
    apply Forall2_cons; [split; [reflexivity|]; apply j_string_text|apply Forall2_nil]. }
  apply j_struct_text. apply Forall2_cons; [split; [reflexivity|]|apply Forall2_nil]. apply j_struct_text.
  apply Forall2_cons; [split; [reflexivity|exact V]|].
  apply Forall2_cons; [split; [reflexivity|]; apply j_option_text; intros; apply j_rules_text|].
  apply Forall2_cons; [split; [reflexivity|]; apply j_option_text; intros; apply j_rules_text|apply Forall2_nil].
Qed.

(** the maps of a resource in memory have increasing keys *)
Definition in_key_order (m : rule_map) : Prop := keys_increase m /\ forall k v, In (k, v) m -> keys_increase v.
Definition ordered (r : supplemental) : Prop :=
  (forall m, su_cardinal r = Some m -> in_key_order m) /\ (forall m, su_ordinal r = Some m -> in_key_order m).
Lemma last_once {V} (m : list (bytes * V)) k v : keys_increase m -> (In (k, v) m <-> last_value m k v).
Proof.
  intro K. apply increase_sorted in K. split.
  - intro I. apply in_split in I as (a & b & ->). exists a, b. split; [reflexivity|]. intro J. apply in_map_iff in J as ((k' & w) & E & J). cbn in E. subst k'.
    clear - K J. induction a as [|x a IH]; cbn [app] in K.
    + apply StronglySorted_inv in K as [_ F]. rewrite Forall_forall in F. apply F in J. exact (before_irrefl _ J).
    + apply StronglySorted_inv in K as [K _]. auto.
  - intros (a & b & -> & _). apply in_or_app. right. now left.
Qed.
Lemma j_map_is {V} (P : json -> V -> Prop) g m : (forall k v, In (k, v) m -> P (g v) v) -> keys_increase m -> is_map P (j_map g m) m.
Proof.
  intros H K. exists (List.map (fun kv => (Some (fst kv), g (snd kv))) m), m. split; [reflexivity|]. split.
  - clear K. induction m as [|[k v] m IH]; constructor; [split; [reflexivity|]; apply (H k); now left|]. apply IH. intros a b I. apply (H a). now right.
  - split; [assumption|]. intros k v. now apply last_once.
Qed.
Lemma j_rules_is m : in_key_order m -> is_rules (j_map (j_map j_string) m) m.
Proof. intros [K I]. apply j_map_is; [|assumption]. intros k v J. apply j_map_is; [reflexivity|]. now apply (I k). Qed.
Lemma j_version_is v : is_version (j_version v) v.
Proof.
  left. eexists. split; [reflexivity|]. split; [repeat constructor; discriminate|].
  split; [right; exists (j_option j_string (ve_number v)); split; [exists [], [(Some (bs "_unicodeVersion"), j_string (ve_unicode_version v)); (Some (bs "_cldrVersion"), j_string (ve_cldr_version v))]; split; [reflexivity|split; vm_compute; intuition discriminate]|]|].
  - destruct (ve_number v); [right; split; [discriminate|]; eexists; split; reflexivity|left; split; reflexivity].
  - split.
    + eexists; split; [|reflexivity]. exists [(Some (bs "_number"), j_option j_string (ve_number v))], [(Some (bs "_cldrVersion"), j_string (ve_cldr_version v))].
      split; [reflexivity|split; vm_compute; intuition discriminate].
    + eexists; split; [|reflexivity]. exists [(Some (bs "_number"), j_option j_string (ve_number v)); (Some (bs "_unicodeVersion"), j_string (ve_unicode_version v))], [].
      split; [reflexivity|split; vm_compute; intuition discriminate].
Qed.
Lemma j_option_is o : (forall m, o = Some m -> in_key_order m) -> nullable is_rules (j_option (j_map (j_map j_string)) o) o.
Proof. destruct o as [m|]; intro H; [right; split; [discriminate|]; exists m; split; [now apply j_rules_is, H|reflexivity]|left; split; reflexivity]. Qed.
Lemma j_supplemental_is s : ordered s -> is_supplemental (j_supplemental s) s.
Proof.
  intros [C O]. left. eexists. split; [reflexivity|]. split; [repeat constructor; discriminate|].
  set (a := j_version (su_version s)). set (b := j_option (j_map (j_map j_string)) (su_cardinal s)). set (c := j_option (j_map (j_map j_string)) (su_ordinal s)).
  split; [|split].
  - exists a. split; [|apply j_version_is]. exists [], [(Some (bs "plurals-type-cardinal"), b); (Some (bs "plurals-type-ordinal"), c)].
    split; [reflexivity|]. clear. clearbody b c. split; vm_compute; intuition discriminate.
  - right. exists b. split; [|now apply j_option_is]. exists [(Some (bs "version"), a)], [(Some (bs "plurals-type-ordinal"), c)].
    split; [reflexivity|]. clearbody a c. split; vm_compute; intuition discriminate.
  - right. exists c. split; [|now apply j_option_is]. exists [(Some (bs "version"), a); (Some (bs "plurals-type-cardinal"), b)], [].
    split; [reflexivity|]. clearbody a b. split; vm_compute; intuition discriminate.
Qed.
Lemma C111_lemma r : ordered r -> resource_text (ser_resource r) r.
Proof.
  intro O. exists (j_resource r). split.
  - exists [], (ser_resource r), []. split; [constructor|]. split; [apply j_resource_text|]. split; [constructor|]. now rewrite app_nil_r.
  - left. eexists. split; [reflexivity|]. split; [repeat constructor; discriminate|]. exists (j_supplemental r). split; [|now apply j_supplemental_is].
    exists [], []. split; [reflexivity|]. split; vm_compute; intuition discriminate.
Qed.
Lemma rules_ordered j m : is_rules j m -> in_key_order m.
Proof.
  intros (l & kvs & _ & F & K & L). split; [exact K|]. intros k v I. apply L in I as (a & b & E & _).
  assert (J : In (k, v) kvs) by (rewrite E; apply in_or_app; right; now left). clear - F J.
  induction F as [|x y l m [_ P] F IH]; [easy|]. destruct J as [->|J]; [|auto]. destruct P as (? & ? & _ & _ & K & _). exact K.
Qed.
Lemma read_ordered s r : resource_text s r -> ordered r.
Proof.
  intros (j & _ & R).
  assert (S : exists j', is_supplemental j' r) by (destruct R as [(l & _ & _ & j' & _ & S)|(a & _ & S)]; eauto). destruct S as [j' S].
  assert (N : forall j o, nullable is_rules j o -> forall m, o = Some m -> in_key_order m).
  { intros x o [[_ ->]|(_ & y & I & ->)] m E; [discriminate|]. injection E as <-. now apply (rules_ordered x). }
  assert (O : forall n l o, optionally is_rules n l o -> forall m, o = Some m -> in_key_order m).
  { intros n l o [[_ ->]|(x & _ & Q)] m E; [discriminate|]. now apply (N x o Q). }
  destruct S as [(l & _ & _ & _ & A & B)|(a & b & c & _ & _ & A & B)]; split; eauto.
Qed.
Lemma C111_files_lemma {ptr : ptr_width} srt jsons rs : inputs_are jsons rs -> generate_rs srt (List.map ser_resource rs) = generate_rs srt jsons.
Proof.
  intro I. unfold generate_rs, generate_tokens.
  assert (K : forall st, gen_loop srt st (List.map ser_resource rs) = gen_loop srt st jsons); [|now rewrite K].
  induction I as [|j r js rs J I IH]; intro st; [reflexivity|]. cbn [List.map gen_loop].
  pose proof (C111_lemma r (read_ordered j r J)) as Q. apply resource_text_iff in J, Q. rewrite J, Q.
  cbn [unwrap rbind]. destruct (gen_step srt st r); cbn [rbind]; auto.
Qed.
