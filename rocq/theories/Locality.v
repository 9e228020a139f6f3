(** * What an entry of a generated table depends on, and what the file depends on *)
From Coq Require Import Sorting.Permutation.
From Verif Require Import Base Ast CldrParser LangId Tokens GenPr GenRs Json JsonSpec JsonDe MakeRules RustExpr
  DigitFacts LangIdFacts LexFacts FileSpec MakeFacts MakeRead MakeTable MakeBody MakeProps.
Open Scope N_scope.

Section Width.
Context {ptr : ptr_width}.

(** ** Specification *)
(** the entries of a table of a text, token by token *)
Definition output_entries (t : pr_type) (out : bytes) : option (list (list token)) :=
  match lex out with
  | Some ts => option_map (fun tbl => drop_last_empty (split_toks (bs ",") tbl)) (table_tokens (table_name t) ts)
  | None => None
  end.
(** the locales of the data with their rules *)
Definition with_rules (d : rule_map) : rule_map := List.filter (fun kv => negb (is_root (fst kv))) d.
(** everything the inputs say about one type of rules *)
Definition all_data (t : pr_type) (rs : list supplemental) : list rule_map :=
  flat_map (fun r => match data_of t r with Some d => [d] | None => [] end) rs.
(** both lists of resources give the same version number, and the same data however it is spread over them *)
Definition same_content (rs rs' : list supplemental) : Prop :=
  (exists v v' z, Forall (fun r => version_of r = v) rs /\ Forall (fun r => version_of r = v') rs' /\
     version_number v z /\ version_number v' z) /\
  forall t, Permutation (all_data t rs) (all_data t rs').

(** ** Entries *)
Definition entry_of (key : bytes) (rules : bmap bytes) : list token :=
  match langid_from_str key, gen_lang_rules rules with Some id, Ok set => gen_mid id set | _, _ => [] end.
Lemma entries_streams t out num c o ts srt d : lex out = Some (file_tokens num c o) -> stream_of t c o = Some ts ->
  gen_type_rs srt d = Ok ts -> output_entries t out = Some ts.
Proof.
  intros L S T. unfold output_entries. rewrite L, file_table, S. cbn [option_map]. f_equal.
  destruct (streams_shape _ _ _ T) as [A B]. now apply split_streams.
Qed.
Lemma entries_map (f : langid * bmap bytes -> list token) (l : list (langid * bmap bytes)) ts :
  Forall2 (fun ir s => exists set, gen_lang_rules (snd ir) = Ok set /\ s = gen_mid (fst ir) set) l ts ->
  (forall id r set, In (id, r) l -> gen_lang_rules r = Ok set -> f (id, r) = gen_mid id set) ->
  ts = List.map f l.
Proof.
  induction 1 as [|[id r] s l ts (set & S & ->) F IH]; intros H; [reflexivity|]. cbn [List.map fst snd] in *. f_equal.
  - symmetry. apply H; [now left|exact S].
  - apply IH. intros. apply H; [now right|auto].
Qed.
Lemma entries_of_keys d l : parse_keys d = Ok l ->
  List.map (fun kv => entry_of (fst kv) (snd kv)) (with_rules d) =
  List.map (fun ir => match gen_lang_rules (snd ir) with Ok set => gen_mid (fst ir) set | _ => [] end) l.
Proof.
  intros P. apply parse_keys_ok in P. unfold with_rules.
  induction P as [|[k v] [id r] ? ? [A B] F IH]; [reflexivity|]. cbn [List.map fst snd] in *. subst r. rewrite IH. f_equal.
  unfold entry_of. now rewrite A.
Qed.
Lemma C99_lemma : exists entry : bytes -> bmap bytes -> list token,
  forall srt jsons out rs t r d, sorts srt -> generate_rs srt jsons = Ok out -> inputs_are jsons rs ->
    In r rs -> data_of t r = Some d ->
    exists es, output_entries t out = Some es /\
      Permutation (List.map (fun kv => entry (fst kv) (snd kv)) (with_rules d)) es.
Proof.
  exists entry_of. intros srt jsons out rs t r d S G I R D.
  apply generate_lex in G as (rs' & v & num & c & o & I' & G & L). rewrite (inputs_unique _ _ _ I I') in *. clear I I' rs.
  pose proof (gen_part_of _ _ _ _ _ _ t G) as P. apply part_stream in P.
  assert (K : In d (collect t rs')) by (apply collect_in; eauto).
  destruct (collect t rs') as [|d' [|]] eqn:C; [easy|destruct K as [->|[]]|easy]. destruct P as (ts & T & P).
  exists ts. split; [now apply (entries_streams _ _ _ _ _ _ srt d L P)|].
  apply type_ok in T as (l & PK & F). rewrite (entries_of_keys _ _ PK).
  rewrite (entries_map (fun ir => match gen_lang_rules (snd ir) with Ok set => gen_mid (fst ir) set | _ => [] end) _ _ F);
    [|intros id r' set _ E; cbn [snd fst]; now rewrite E].
  apply Permutation_map, (proj1 (S _ l)).
Qed.

(** ** The whole file *)
Lemma content_ok srt rs rs' v num c o : same_content rs rs' -> gen_ok srt rs v num c o -> exists v', gen_ok srt rs' v' num c o.
Proof.
  intros [(w & w' & z & V & V' & W & W') P] [A B C O N]. exists w'. constructor; auto.
  - destruct rs as [|r rs].
    + exfalso. cbn in C, O. destruct N as [N|N]; now apply N.
    + inversion V as [|? ? V1 _]; inversion A as [|? ? A1 _]; subst. apply isize_iff in W, W'. congruence.
  - eapply part_ok_perm; [|exact C]. exact (P CARDINAL).
  - eapply part_ok_perm; [|exact O]. exact (P ORDINAL).
Qed.
Lemma content_generate srt jsons jsons' rs rs' out : inputs_are jsons rs -> inputs_are jsons' rs' -> same_content rs rs' ->
  generate_rs srt jsons = Ok out -> generate_rs srt jsons' = Ok out.
Proof.
  intros I I' S G. apply generate_ok in G as (rs1 & v & num & c & o & I1 & G & ->).
  rewrite <- (inputs_unique _ _ _ I I1) in G. destruct (content_ok _ _ _ _ _ _ _ S G) as (v' & G').
  apply generate_ok. exists rs', v', num, c, o. auto.
Qed.
Lemma content_sym rs rs' : same_content rs rs' -> same_content rs' rs.
Proof.
  intros [(v & v' & z & A & B & C & D) P]. split; [exists v', v, z; auto|]. intros t. now symmetry.
Qed.
Lemma C100_lemma srt jsons jsons' rs rs' : inputs_are jsons rs -> inputs_are jsons' rs' -> same_content rs rs' ->
  same_outcome (generate_rs srt jsons) (generate_rs srt jsons').
Proof.
  intros I I' S. destruct (generate_rs srt jsons) as [out|e|w] eqn:E.
  - left. exists out. split; [reflexivity|]. now apply (content_generate srt jsons jsons' rs rs').
  - now apply generate_no_err in E.
  - destruct (generate_rs srt jsons') as [out|e|w'] eqn:E'.
    + apply (content_generate srt jsons' jsons rs' rs) in E'; auto; [congruence|now apply content_sym].
    + now apply generate_no_err in E'.
    + right. eauto.
Qed.
End Width.
