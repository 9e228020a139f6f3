(** * The rule texts of the CLDR files in the repository are whole rules (C108) *)
From Verif Require Import Base Ast CldrParser GenRs Json JsonSpec JsonDe Grammar ParserProps ParserExact PrinterFacts FileSpec
  TextCardinals33 TextOrdinals33 TextCardinals37 TextOrdinals37.
Open Scope N_scope.

Definition cldr_files : list bytes := [cardinals33_json; ordinals33_json; cardinals37_json; ordinals37_json].

Definition nonempty_b (c : condition) : bool := forallb (forallb (fun r => match rel_list r with [] => false | _ => true end)) c.
Lemma nonempty_ok c : nonempty_b c = true -> lists_nonempty c.
Proof.
  intro H. unfold nonempty_b in H. rewrite forallb_forall in H. apply Forall_forall. intros a Ia. specialize (H a Ia).
  rewrite forallb_forall in H. apply Forall_forall. intros r Ir. specialize (H r Ir). now destruct (rel_list r).
Qed.
Definition whole_b (text : bytes) : bool :=
  match parse_plural_rule text with Ok r => nonempty_b (ru_condition r) | _ => false end.
Lemma whole_ok text : whole_b text = true -> no_condition text \/ exists ru, ru_condition ru <> [] /\ g_rule true ru text.
Proof.
  unfold whole_b. destruct (parse_plural_rule text) as [r| |] eqn:E; try discriminate. intro H. apply nonempty_ok in H.
  destruct (ru_condition r) as [|a c] eqn:C.
  - left. now apply (empty_rule text r E).
  - right. exists r. assert (N : ru_condition r <> []) by (rewrite C; discriminate). split; [exact N|].
    apply (proj1 (rule_exact text r N ltac:(rewrite C; exact H)) E).
Qed.
Definition map_whole (d : rule_map) : bool := forallb (fun kv => forallb (fun nt => whole_b (snd nt)) (snd kv)) d.
Definition opt_whole (o : option rule_map) : bool := match o with Some d => map_whole d | None => true end.
Definition file_whole (j : bytes) : bool :=
  match parse_plurals_resource_from_string j with
  | Some r => opt_whole (data_of CARDINAL r) && opt_whole (data_of ORDINAL r)
  | None => false
  end.
Lemma files_whole : forallb file_whole cldr_files = true.
Proof. vm_compute. reflexivity. Qed.
Lemma file_whole_ok j r t d key rules name text : file_whole j = true -> resource_text j r -> data_of t r = Some d ->
  In (key, rules) d -> In (name, text) rules -> whole_b text = true.
Proof.
  unfold file_whole. intros H R D I I'. apply resource_text_iff in R. rewrite R in H.
  apply andb_prop in H as [H1 H2].
  assert (M : map_whole d = true) by (destruct t; [rewrite D in H1|rewrite D in H2]; assumption).
  unfold map_whole in M. rewrite forallb_forall in M. specialize (M _ I). cbn [snd] in M.
  rewrite forallb_forall in M. exact (M _ I').
Qed.
Lemma C108_whole j r t d key rules name text : In j cldr_files -> resource_text j r -> data_of t r = Some d ->
  In (key, rules) d -> In (name, text) rules -> no_condition text \/ exists ru, ru_condition ru <> [] /\ g_rule true ru text.
Proof.
  intros J R D I I'. apply whole_ok. pose proof files_whole as F. rewrite forallb_forall in F.
  exact (file_whole_ok j r t d key rules name text (F j J) R D I I').
Qed.
