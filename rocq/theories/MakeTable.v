(** * The tables of a generated file *)
From Coq Require Import Lia Sorting.Permutation.
From Verif Require Import Base Ast CldrParser LangId Tokens GenPr GenRs Json MakeRules RustExpr
  DigitFacts LangIdFacts LexFacts FileSpec MakeFacts GenFacts MakeRead.
Open Scope N_scope.

Section Width.
Context {ptr : ptr_width}.

(** ** Skipping to an item *)
Definition not_name (name : bytes) (t : token) : bool :=
  match t with TIdent n => negb (bytes_eqb n name) | _ => true end.
Lemma table_skip name t r : not_name name t = true -> table_tokens name (t :: r) = table_tokens name r.
Proof.
  destruct t as [n| | |]; try reflexivity. cbn [not_name]. intros H. apply negb_true_iff in H.
  destruct r as [|[| |p1|] r]; try reflexivity. destruct r as [|[| |p2|] r]; try reflexivity.
  destruct r as [|[| | |[] g1] r]; try reflexivity. destruct r as [|[| |p3|] r]; try reflexivity.
  destruct r as [|[| |p4|] r]; try reflexivity. destruct r as [|[| | |[] g2] r]; try reflexivity.
  destruct r as [|[| |p5|] r]; try reflexivity. cbn [table_tokens]. rewrite H. reflexivity.
Qed.
Lemma table_skip_app name a r : forallb (not_name name) a = true -> table_tokens name (a ++ r) = table_tokens name r.
Proof.
  induction a as [|t a IH]; [reflexivity|]. cbn [forallb app]. intros H. apply andb_prop in H as [A B].
  rewrite table_skip by auto. auto.
Qed.
Lemma version_skip t r : not_name (bs "CLDR_VERSION") t = true -> find_version (t :: r) = find_version r.
Proof.
  destruct t as [n| | |]; try reflexivity. cbn [not_name]. intros H. apply negb_true_iff in H.
  destruct r as [|[| |p1|] r]; try reflexivity. destruct r as [|[u| | |] r]; try reflexivity.
  destruct r as [|[| |p3|] r]; try reflexivity.
  destruct r as [|[|p4| |] r]; try reflexivity. destruct r as [|[| |p5|] r]; try reflexivity.
  cbn [find_version]. rewrite H. reflexivity.
Qed.
Lemma version_skip_app a r : forallb (not_name (bs "CLDR_VERSION")) a = true -> find_version (a ++ r) = find_version r.
Proof.
  induction a as [|t a IH]; [reflexivity|]. cbn [forallb app]. intros H. apply andb_prop in H as [A B].
  rewrite version_skip by auto. auto.
Qed.
Lemma file_version num c o : find_version (file_tokens num c o) = Some (Z.to_N (num mod 2 ^ 64)).
Proof.
  unfold file_tokens. rewrite version_skip_app by reflexivity. rewrite version_skip_app by reflexivity.
  rewrite version_skip_app by reflexivity. unfold version_item, lit_u64. generalize (Z.to_N (num mod 2 ^ 64)). intros n.
  change ([I "pub"; I "static"; I "CLDR_VERSION"; P ":"; I "usize"; P "="; TLit (dec_of_N n); P ";"])
   with ([I "pub"; I "static"] ++ [I "CLDR_VERSION"; P ":"; I "usize"; P "="; TLit (dec_of_N n); P ";"]).
  rewrite <- app_assoc, version_skip_app by reflexivity. unfold I, P. cbn [app find_version]. rewrite !bytes_eqb_refl. cbn [andb].
  apply read_nat_dec.
Qed.
Definition stream_of (t : pr_type) (c o : option (list (list token))) : option (list (list token)) :=
  match t with CARDINAL => c | ORDINAL => o end.
Lemma table_here t s r : table_tokens (table_name t) (create_pr_type t s ++ r) = Some (sep_by [P ","] s).
Proof.
  unfold create_pr_type. generalize (sep_by [P ","] s). intros tbl.
  change ([I "pub"; I "const"; pr_name t; P ":"; P "&"; Bracket [Par [I "LanguageIdentifier"; P ","; I "PluralRule"]]; P "="; P "&"; Bracket tbl; P ";"] ++ r)
   with ([I "pub"; I "const"] ++ [pr_name t; P ":"; P "&"; Bracket [Par [I "LanguageIdentifier"; P ","; I "PluralRule"]]; P "="; P "&"; Bracket tbl; P ";"] ++ r).
  rewrite table_skip_app by (destruct t; reflexivity).
  destruct t; unfold pr_name, table_name, I at 1, P, Bracket; cbn [app table_tokens]; rewrite !bytes_eqb_refl; reflexivity.
Qed.
Lemma table_other t s : table_tokens (table_name t) (table_stream t s) = option_map (sep_by [P ","]) s.
Proof.
  destruct s as [s|]; [|reflexivity]. cbn [table_stream option_map]. rewrite <- (app_nil_r (create_pr_type t s)). apply table_here.
Qed.
Lemma file_table t num c o : table_tokens (table_name t) (file_tokens num c o) = option_map (sep_by [P ","]) (stream_of t c o).
Proof.
  unfold file_tokens. rewrite !app_assoc. rewrite <- (app_assoc _ (table_stream CARDINAL c)).
  rewrite table_skip_app by (destruct t; reflexivity). destruct t; cbn [stream_of].
  - destruct c as [s|]; cbn [table_stream]; [exact (table_here CARDINAL s _)|]. cbn [app option_map].
    destruct o as [s|]; [|reflexivity]. rewrite <- (app_nil_r (table_stream _ _)). rewrite table_skip_app; reflexivity.
  - rewrite table_skip_app; [exact (table_other ORDINAL o)|]. destruct c; reflexivity.
Qed.

(** ** The entries *)
Lemma mid_free id set : free (bs ",") (gen_mid id set).
Proof. repeat constructor. Qed.
Lemma drop_mids l : Forall (fun s => s <> []) l -> drop_last_empty l = l.
Proof.
  induction 1 as [|x l X F IH]; [reflexivity|]. cbn [drop_last_empty]. rewrite IH. now destruct x.
Qed.
Lemma split_streams l : Forall (fun s => s <> []) l -> Forall (free (bs ",")) l ->
  drop_last_empty (split_toks (bs ",") (sep_by [P ","] l)) = l.
Proof.
  intros N F. destruct l as [|x l]; [reflexivity|]. change (P ",") with (TPunct (bs ",")).
  rewrite split_sep_by by easy. now apply drop_mids.
Qed.
Lemma map_opt_map {A B C} (f : B -> option C) (g : A -> B) l : map_opt f (List.map g l) = map_opt (fun a => f (g a)) l.
Proof. induction l as [|a l IH]; [reflexivity|]. cbn. now rewrite IH. Qed.
Lemma map_opt_ext {A B} (f g : A -> option B) l : (forall a, In a l -> f a = g a) -> map_opt f l = map_opt g l.
Proof.
  induction l as [|a l IH]; [reflexivity|]. intros H. cbn. rewrite (H a), IH by (intros; try apply H; cbn; auto). reflexivity.
Qed.
Lemma map_opt_some {A B} (f : A -> option B) l m : map_opt f l = Some m <-> Forall2 (fun a b => f a = Some b) l m.
Proof.
  revert m. induction l as [|a l IH]; intros m; cbn.
  - split; [intros H; injection H as <-; constructor|]. intros H. now inversion H.
  - split.
    + destruct (f a) eqn:A'; [|easy]. destruct (map_opt f l) eqn:L; [|easy]. intros H. injection H as <-. constructor; [auto|]. now apply IH.
    + intros H. inversion H as [|? b ? m' X Y]; subst. apply IH in Y. now rewrite X, Y.
Qed.
Lemma entry_mid id set : entry_key (gen_mid id set) = read_langid (lang_args id).
Proof. reflexivity. Qed.

(** the locales of the input in table order *)
Lemma parse_keys_ok {V} (d : bmap V) l : parse_keys d = Ok l <->
  Forall2 (fun kv iv => langid_from_str (fst kv) = Some (fst iv) /\ snd kv = snd iv)
    (List.filter (fun kv => negb (is_root (fst kv))) d) l.
Proof.
  revert l. induction d as [|[k v] d IH]; intros l; cbn [parse_keys List.filter fst].
  - split; [intros H; injection H as <-; constructor|]. intros H. now inversion H.
  - fold (is_root k). destruct (is_root k); cbn [negb]; [apply IH|]. rewrite rbind_ok. split.
    + intros (id & E & H). apply unwrap_ok in E. apply rbind_ok in H as (l' & L & H). injection H as <-.
      constructor; [auto|]. now apply IH.
    + intros H. inversion H as [|? [id v'] ? l' [X X2] Y]; subst. cbn in X, X2. subst v'. exists id. rewrite X. split; [reflexivity|].
      apply rbind_ok. exists l'. split; [now apply IH|reflexivity].
Qed.
Definition parsed_keys (d : rule_map) (ids : list langid) : Prop :=
  Forall2 (fun k id => langid_from_str k = Some id) (locales d) ids.
Lemma locales_filter d : locales d = List.map fst (List.filter (fun kv : bytes * bmap bytes => negb (is_root (fst kv))) d).
Proof.
  unfold locales. induction d as [|[k v] d IH]; [reflexivity|]. cbn [List.map List.filter fst].
  destruct (is_root k); cbn [negb List.map fst]; now rewrite IH.
Qed.
Lemma parse_keys_ids d l : parse_keys d = Ok l -> parsed_keys d (List.map fst l).
Proof.
  intros H. apply parse_keys_ok in H. unfold parsed_keys. rewrite locales_filter.
  induction H as [|? ? ? ? [A B] F IH]; constructor; auto.
Qed.
Lemma type_ok srt d ts : gen_type_rs srt d = Ok ts <-> exists l, parse_keys d = Ok l /\
  Forall2 (fun ir s => exists set, gen_lang_rules (snd ir) = Ok set /\ s = gen_mid (fst ir) set) (srt _ l) ts.
Proof.
  unfold gen_type_rs. rewrite rbind_ok. split; intros (l & L & H); exists l; (split; [auto|]).
  - apply map_res_ok in H. induction H as [|[id r] s ? ? X F IH]; constructor; auto.
    apply rbind_ok in X as (set & S & E). injection E as <-. exists set. auto.
  - apply map_res_ok. induction H as [|[id r] s ? ? X F IH]; constructor; auto.
    destruct X as (set & S & ->). apply rbind_ok. exists set. split; [exact S|reflexivity].
Qed.
Lemma streams_shape srt d ts : gen_type_rs srt d = Ok ts ->
  Forall (fun s => s <> []) ts /\ Forall (free (bs ",")) ts.
Proof.
  intros H. apply type_ok in H as (l & _ & H). split; induction H as [|? ? ? ? (set & _ & ->) F IH]; constructor; auto; try easy.
  apply mid_free.
Qed.
Lemma keys_of_streams srt d ts : gen_type_rs srt d = Ok ts -> exists l, parse_keys d = Ok l /\
  table_keys (sep_by [P ","] ts) = map_opt (fun id => read_langid (lang_args id)) (List.map fst (srt _ l)).
Proof.
  intros H. destruct (streams_shape _ _ _ H) as [A B]. apply type_ok in H as (l & L & H). exists l. split; [auto|].
  unfold table_keys. rewrite split_streams by auto. rewrite map_opt_map. clear - H.
  induction H as [|[id r] ? ? ? (set & _ & ->) F IH]; [reflexivity|]. cbn [map_opt fst]. rewrite IH, entry_mid. reflexivity.
Qed.
Lemma part_stream srt ds r : part_ok srt None ds r -> match ds with
  | [] => r = None | [d] => exists ts, gen_type_rs srt d = Ok ts /\ r = Some ts | _ => False end.
Proof. destruct ds as [|d [|]]; cbn; auto. now intros [_ H]. Qed.
Lemma collect_in t rs d : In d (collect t rs) <-> exists r, In r rs /\ data_of t r = Some d.
Proof.
  unfold collect. rewrite in_flat_map. split; intros (r & I & H); exists r; (split; [auto|]).
  - destruct (data_of t r); [|easy]. destruct H as [->|[]]. reflexivity.
  - rewrite H. now left.
Qed.
Lemma gen_part_of srt rs v num c o t : gen_ok srt rs v num c o -> part_ok srt None (collect t rs) (stream_of t c o).
Proof. intros G. destruct t; [exact (ok_cardinal _ _ _ _ _ _ G)|exact (ok_ordinal _ _ _ _ _ _ G)]. Qed.

(** what the output holds for one type of rules *)
Inductive table_for (srt : sorter) (rs : list supplemental) (t : pr_type) (out : bytes) : Prop :=
| table_absent : (forall r, In r rs -> data_of t r = None) -> ~ output_has t out -> table_for srt rs t out
| table_present r d l ts : In r rs -> data_of t r = Some d -> parse_keys d = Ok l ->
    (forall r', In r' rs -> forall d', data_of t r' = Some d' -> d' = d) ->
    gen_type_rs srt d = Ok ts ->
    Forall2 (fun ir s => exists set, gen_lang_rules (snd ir) = Ok set /\ s = gen_mid (fst ir) set) (srt _ l) ts ->
    output_has t out ->
    output_keys t out = map_opt (fun id => read_langid (lang_args id)) (List.map fst (srt _ l)) ->
    output_table t out = map_opt read_entry ts -> table_for srt rs t out.
Lemma generate_table srt jsons out t : generate_rs srt jsons = Ok out ->
  exists rs, inputs_are jsons rs /\ table_for srt rs t out.
Proof.
  intros H. apply generate_lex in H as (rs & v & num & c & o & I & G & L). exists rs. split; [auto|].
  pose proof (gen_part_of _ _ _ _ _ _ t G) as P. apply part_stream in P.
  pose proof (file_table t num c o) as T. destruct (collect t rs) as [|d [|]] eqn:C; [|destruct P as (ts & TS & P)|easy].
  - apply table_absent.
    + intros r R. destruct (data_of t r) as [d|] eqn:D; [|reflexivity]. exfalso.
      assert (K : In d (collect t rs)) by (apply collect_in; eauto). now rewrite C in K.
    + unfold output_has. rewrite L, T, P. intros K. now apply K.
  - assert (K : In d (collect t rs)) by (rewrite C; now left). apply collect_in in K as (r & R & D).
    destruct (streams_shape _ _ _ TS) as [SA SB].
    pose proof (keys_of_streams _ _ _ TS) as (l & PK & KS). pose proof TS as TS'. apply type_ok in TS' as (l' & PK' & F).
    rewrite PK in PK'. injection PK' as <-.
    apply (table_present srt rs t out r d l ts); auto.
    + intros r' R' d' D'. assert (K : In d' (collect t rs)) by (apply collect_in; eauto). rewrite C in K. destruct K as [->|[]]. reflexivity.
    + unfold output_has. rewrite L, T, P. easy.
    + unfold output_keys. rewrite L, T, P. exact KS.
    + unfold output_table. rewrite L, T, P. cbn [option_map]. unfold read_table. now rewrite split_streams.
Qed.
End Width.
