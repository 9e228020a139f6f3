(** * The shipped rules.rs and the generator's output *)
From Coq Require Import Lia.
From Verif Require Import Base LangId Tokens GenRs Json MakeRules RustExpr Tables LangIdFacts FileSpec MakeFacts MakeRead MakeProps MakeMore.
From Verif Require ApiProps LexFacts JsonSpec JsonDe MakeTable.
From Verif Require Import TextRules TextCardinals37 TextOrdinals37.
Open Scope N_scope.

(** ** What rustfmt changes, on tokens: it joins [k . 0] into one literal,
    drops the braces of a closure whose body is a path and doubled parentheses,
    and adds commas before closing delimiters.  (It also sorts [use] items, see below.) *)
Definition digits_only (s : bytes) : bool := match s with [] => false | _ => forallb is_digit s end.
Fixpoint tidy (ts : list token) : list token :=
  match ts with
  | TLit k :: ((TPunct d :: TLit z :: r) as r0) =>
      if digits_only k && bytes_eqb d (bs ".") && bytes_eqb z (bs "0") then TLit (k ++ bs ".0") :: tidy r
      else TLit k :: tidy r0
  | TPunct a :: ((TIdent po :: TPunct b :: TGroup DBrace [TGroup DBrace [TIdent x; TPunct c; TIdent y]] :: r) as r0) =>
      if bytes_eqb a (bs "|") && bytes_eqb b (bs "|")
      then TPunct a :: TIdent po :: TPunct b :: TIdent x :: TPunct c :: TIdent y :: tidy r
      else TPunct a :: tidy r0
  | [TPunct c] => if bytes_eqb c (bs ",") then [] else [TPunct c]
  | t :: r => t :: tidy r
  | [] => []
  end.
Fixpoint tidy_token (t : token) : token :=
  match t with
  | TGroup d ts =>
      let ts' := (fix go ts := match ts with [] => [] | t :: r => tidy_token t :: go r end) ts in
      match d, ts' with
      | DParen, [TGroup DParen x] => TGroup DParen x
      | _, _ => TGroup d (tidy ts')
      end
  | _ => t
  end.
Definition tidy_file (ts : list token) : list token := tidy (List.map tidy_token ts).

(** two streams that are the same up to that, the items [use u;] and [use w;]
    exchanged *)
Definition same_formatted (u w a b : list token) : Prop :=
  exists pre post, tidy_file a = pre ++ (I "use" :: u ++ [P ";"]) ++ (I "use" :: w ++ [P ";"]) ++ post /\
                   tidy_file b = pre ++ (I "use" :: w ++ [P ";"]) ++ (I "use" :: u ++ [P ";"]) ++ post.

Definition gen37_tokens :=
  Eval vm_compute in match generate_tokens insertion_sort [cardinals37_json; ordinals37_json] with Ok ts => ts | _ => [] end.
Lemma gen37_correct : generate_tokens insertion_sort [cardinals37_json; ordinals37_json] = Ok gen37_tokens.
Proof. vm_compute. reflexivity. Qed.
Lemma gen37_reads : read_file gen37_tokens = shipped.
Proof. vm_compute. reflexivity. Qed.
Definition use_langid : list token := [I "unic_langid"; P "::"; I "LanguageIdentifier"].
Definition use_subtags : list token := [I "unic_langid"; P "::"; I "subtags"].
Lemma gen37_same : exists ts, lex rules_rs = Some ts /\ same_formatted use_langid use_subtags gen37_tokens ts.
Proof.
  pose (g := tidy_file gen37_tokens). pose (pre := firstn 24 g). pose (post := skipn 34 g).
  assert (A : tidy_file gen37_tokens = pre ++ (I "use" :: use_langid ++ [P ";"]) ++ (I "use" :: use_subtags ++ [P ";"]) ++ post).
  { vm_compute. reflexivity. }
  assert (B : option_map tidy_file (lex rules_rs) = Some (pre ++ (I "use" :: use_subtags ++ [P ";"]) ++ (I "use" :: use_langid ++ [P ";"]) ++ post)).
  { vm_compute. reflexivity. }
  destruct (lex rules_rs) as [ts|]; [|discriminate B]. cbn [option_map] in B. injection B as B.
  exists ts. split; [reflexivity|]. exists pre, post. split; [exact A|exact B].
Qed.

(** ** No two keys of the shipped data are the same identifier *)
Fixpoint distinctb (l : list langid) : bool :=
  match l with [] => true | x :: r => negb (existsb (ApiProps.langid_eqb x) r) && distinctb r end.
Lemma distinctb_ok l : distinctb l = true -> NoDup l.
Proof.
  induction l as [|x l IH]; intros H; constructor; cbn [distinctb] in H; apply andb_prop in H as [A B]; [|auto].
  intros I. apply negb_true_iff in A. rewrite <- not_true_iff_false in A. apply A, existsb_exists. exists x. split; [auto|].
  now apply ApiProps.langid_eqb_eq.
Qed.
Definition distinct_data (d : option rule_map) : bool :=
  match d with
  | Some d => match map_opt langid_from_str (locales d) with Some ids => distinctb ids | None => true end
  | None => true
  end.
Definition distinct_text (j : bytes) : bool :=
  match parse_plurals_resource_from_string j with
  | Some r => distinct_data (su_cardinal r) && distinct_data (su_ordinal r)
  | None => true
  end.
Lemma distinct_text_ok j r t d : distinct_text j = true -> JsonSpec.resource_text j r ->
  data_of t r = Some d -> ids_distinct d.
Proof.
  unfold distinct_text. intros H P D ids F. apply JsonDe.resource_text_iff in P. rewrite P in H. apply andb_prop in H as [C O].
  assert (K : distinct_data (Some d) = true) by (destruct t; cbn in D; rewrite D in *; assumption).
  cbn [distinct_data] in K. apply MakeTable.map_opt_some in F. rewrite F in K. now apply distinctb_ok.
Qed.
Lemma shipped_distinct : forallb distinct_text [cardinals37_json; ordinals37_json] = true.
Proof. vm_compute. reflexivity. Qed.

Lemma C52_lemma srt : sorts srt -> exists out ts ts',
  generate_rs srt [cardinals37_json; ordinals37_json] = Ok out /\ lex out = Some ts /\ lex rules_rs = Some ts' /\
  read_file ts = read_file ts' /\ same_formatted use_langid use_subtags ts ts'.
Proof.
  intros S. assert (G : generate_rs insertion_sort [cardinals37_json; ordinals37_json] = Ok (print_tokens gen37_tokens)).
  { unfold generate_rs. now rewrite gen37_correct. }
  assert (E : generate_rs srt [cardinals37_json; ordinals37_json] = Ok (print_tokens gen37_tokens)).
  { rewrite <- G. apply sorter_irrelevant; [exact S|exact insertion_sorts|]. intros j r t d J. apply distinct_text_ok.
    pose proof shipped_distinct as H. rewrite forallb_forall in H. now apply H. }
  destruct gen37_same as (ts' & L & F). exists (print_tokens gen37_tokens), gen37_tokens, ts'.
  split; [exact E|]. split; [|split; [exact L|split; [|exact F]]].
  - assert (T := gen37_correct). apply generate_tokens_ok in T as (rs & v & num & c & o & I & K & T). rewrite T. apply LexFacts.lex_print.
    apply file_wf; [exact (part_wf _ _ _ (ok_cardinal _ _ _ _ _ _ K))|exact (part_wf _ _ _ (ok_ordinal _ _ _ _ _ _ K))].
  - rewrite gen37_reads. pose proof shipped_correct as H. unfold shipped_file in H. rewrite L in H. cbn [option_map] in H. congruence.
Qed.
