(** * The fixtures of make_pluralrules/tests *)
From Verif Require Import Base DigitFacts LangId Tokens GenRs Json MakeRules FileSpec MakeFacts MakeRead MakeProps MakeMore Shipped.
From Verif Require Import TextFix33 TextCardinals33 TextOrdinals33 TextWithin TextWithinRs.
Open Scope N_scope.

(** [str::trim], applied to every file by make_pluralrules/tests/test.rs:7-12;
    the files are ASCII at both ends *)
Definition trim (s : bytes) : bytes := rev' (drop_while is_ws (rev' (drop_while is_ws s))).

Definition generated (jsons : list bytes) : res bytes :=
  match generate_tokens insertion_sort jsons with
  | Ok ts => Ok (print_tokens_acc ts [])
  | Err e => Err e
  | Panic w => Panic w
  end.
Lemma generated_eq jsons : generated jsons = generate_rs insertion_sort jsons.
Proof. unfold generated, generate_rs. destruct (generate_tokens _ _); cbn [rbind]; try reflexivity. now rewrite print_tokens_fast. Qed.

Definition generates (jsons : list bytes) (out : bytes) : bool :=
  match generated jsons with Ok s => bytes_eqb s out | _ => false end.
Lemma same_output srt jsons out : sorts srt -> forallb distinct_text jsons = true ->
  generates jsons out = true -> generate_rs srt jsons = Ok out.
Proof.
  intros S D G. unfold generates in G. rewrite generated_eq in G.
  destruct (generate_rs insertion_sort jsons) as [s| |] eqn:E; try discriminate G. apply bytes_eqb_eq in G. subst s.
  rewrite <- E. apply sorter_irrelevant; [exact S|exact insertion_sorts|].
  intros j r t d J. apply distinct_text_ok. rewrite forallb_forall in D. now apply D.
Qed.

Lemma distinct33 : forallb distinct_text [trim cardinals33_json; trim ordinals33_json] = true.
Proof. vm_compute. reflexivity. Qed.
Lemma generated33 : generates [trim cardinals33_json; trim ordinals33_json] (trim fixture33_rs) = true.
Proof. vm_compute. reflexivity. Qed.
Lemma fixture33 srt : sorts srt ->
  generate_rs srt [trim cardinals33_json; trim ordinals33_json] = Ok (trim fixture33_rs).
Proof. intros S. exact (same_output _ _ _ S distinct33 generated33). Qed.

Lemma distinct_within : forallb distinct_text [trim within_json] = true.
Proof. vm_compute. reflexivity. Qed.
Lemma generated_within : generates [trim within_json] (trim within_rs) = true.
Proof. vm_compute. reflexivity. Qed.
Lemma fixture_within srt : sorts srt -> generate_rs srt [trim within_json] = Ok (trim within_rs).
Proof. intros S. exact (same_output _ _ _ S distinct_within generated_within). Qed.
