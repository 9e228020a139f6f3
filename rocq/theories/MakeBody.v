(** * The functions of a generated file *)
From Coq Require Import Lia Sorting.Permutation.
From Verif Require Import Base Ast CldrParser Operands LangId Tokens GenPr GenRs Json MakeRules RustExpr
  DigitFacts LangIdFacts LexFacts FileSpec MakeFacts GenFacts MakeRead MakeTable.
Open Scope N_scope.

Section Width.
Context {ptr : ptr_width}.

(** ** Conditions hold no brace group at the top *)
Definition no_brace (t : token) : Prop := match t with TGroup DBrace _ => False | _ => True end.
Lemma sep_by_forall (Q : token -> Prop) sep l : Forall Q sep -> Forall (Forall Q) l -> Forall Q (sep_by sep l).
Proof.
  intros S F. induction F as [|x l X F IH]; [constructor|]. destruct l as [|y l]; [exact X|].
  change (sep_by sep (x :: y :: l)) with (x ++ sep ++ sep_by sep (y :: l)). apply Forall_app. split; [auto|]. apply Forall_app. auto.
Qed.
Lemma gen_pr_no_brace c ts : gen_pr c = Ok ts -> Forall no_brace ts.
Proof.
  unfold gen_pr, create_condition. rewrite rbind_ok. intros (v & V & H). injection H as <-. apply map_res_ok in V.
  apply sep_by_forall; [repeat constructor|]. induction V as [|a t l m A V IH]; constructor; auto. clear - A.
  unfold create_and_condition in A. apply rbind_ok in A as (w & W & H). injection H as <-. repeat constructor.
Qed.
Lemma until_brace_at e g r : Forall no_brace e -> forall acc, until_brace acc (e ++ TGroup DBrace g :: r) = Some (rev acc ++ e, g, r).
Proof.
  induction 1 as [|t e T F IH]; intros acc; cbn [app].
  - cbn. now rewrite app_nil_r.
  - assert (K : until_brace acc (t :: e ++ TGroup DBrace g :: r) = until_brace (t :: acc) (e ++ TGroup DBrace g :: r)).
    { destruct t as [| | |[] ts]; try reflexivity. easy. }
    rewrite K, IH. cbn [rev]. now rewrite <- app_assoc.
Qed.

(** ** The chain of arms *)
Fixpoint chain_tokens (set : list (category * list token)) : list token :=
  match set with
  | [] => [ret OTHER]
  | (c, e) :: rest => I "if" :: e ++ ret c :: I "else" :: chain_tokens rest
  end.
Lemma chain_eq set : Forall (fun ce => fst ce <> OTHER) set -> gen_chain set = chain_tokens set.
Proof.
  intros F. destruct set as [|[c e] rest]; [reflexivity|]. inversion F as [|? ? N F']; subst. cbn [fst] in N. clear F.
  cbn [gen_chain chain_tokens].
  assert (K : create_return c e = I "if" :: e ++ [ret c]) by (destruct c; easy).
  rewrite K. clear K N.
  assert (G : forall acc, fold_left (fun tokens '(c, e) => tokens ++ [I "else"] ++ create_return c e) rest acc
     ++ [I "else"; ret OTHER] = acc ++ I "else" :: chain_tokens rest).
  { induction F' as [|[c' e'] rest N F IH]; intros acc; cbn [fold_left chain_tokens]; [reflexivity|].
    rewrite IH. cbn [fst] in N. assert (K : create_return c' e' = I "if" :: e' ++ [ret c']) by (destruct c'; easy).
    rewrite K. rewrite <- !app_assoc. cbn [app]. rewrite <- app_assoc. reflexivity. }
  rewrite G. cbn [app]. now rewrite <- app_assoc.
Qed.
Definition read_arm (ce : category * list token) : option (bexpr * category) :=
  option_map (fun e => (e, fst ce)) (read_bexpr (snd ce)).
Lemma read_cat_ret c : read_cat [I "PluralCategory"; P "::"; category_ident c] = Some c.
Proof. destruct c; reflexivity. Qed.
Lemma read_chain_set set : Forall (fun ce => Forall no_brace (snd ce)) set -> forall k, (List.length set < k)%nat ->
  read_chain k (chain_tokens set) = option_map (fun a => mkBody a OTHER) (map_opt read_arm set).
Proof.
  induction 1 as [|[c e] set N F IH]; intros k L; destruct k as [|k]; try (cbn in L; lia).
  - reflexivity.
  - cbn [snd] in N. cbn [chain_tokens map_opt List.length] in *. unfold I at 1. cbn [read_chain].
    rewrite bytes_eqb_refl. unfold ret, Brace. rewrite until_brace_at by auto. cbn [rev app]. change (I "else") with (TIdent (bs "else")). cbv iota beta. rewrite bytes_eqb_refl.
    rewrite read_cat_ret. rewrite IH by lia. unfold read_arm at 2. cbn [fst snd].
    destruct (read_bexpr e); [|reflexivity]. cbn [option_map]. destruct (map_opt read_arm set); reflexivity.
Qed.
Lemma chain_length set : (List.length set < S (List.length (chain_tokens set)))%nat.
Proof. induction set as [|[c e] set IH]; cbn [chain_tokens List.length]; [lia|]. rewrite app_length. cbn [List.length]. lia. Qed.
Lemma read_mid id set : Forall (fun ce => fst ce <> OTHER) set -> Forall (fun ce => Forall no_brace (snd ce)) set ->
  read_entry (gen_mid id set) =
  match read_langid (lang_args id), map_opt read_arm set with
  | Some l, Some arms => Some (l, mkBody arms OTHER)
  | _, _ => None
  end.
Proof.
  intros A B. unfold gen_mid. rewrite gen_langid_args, chain_eq by auto.
  unfold Par at 1. unfold I at 1, P at 1, Par at 1, P at 1 2 3, I at 1. unfold read_entry. cbn [app]. rewrite !bytes_eqb_refl. cbn [andb].
  destruct (read_langid (lang_args id)) as [l|]; [|reflexivity].
  unfold Brace. cbn [split_toks is_punct drop_last_empty]. unfold read_body.
  assert (C : read_cat (chain_tokens set) = None).
  { destruct set as [|[c e] set]; [reflexivity|]. cbn [chain_tokens]. unfold I at 1. destruct e as [|[] [|[] e]]; try reflexivity. destruct e; try reflexivity. }
  rewrite C, (read_chain_set set B _ (chain_length set)). destruct (map_opt read_arm set); reflexivity.
Qed.

(** ** The rules of a locale *)
Lemma split_first a r : ~ In 45 a -> split_on (fun c => c =? 45) (a ++ 45 :: r) = a :: split_on (fun c => c =? 45) r.
Proof.
  induction a as [|x a IH]; intros N; [reflexivity|]. cbn [app split_on]. destruct (x =? 45) eqn:E.
  - apply N.eqb_eq in E. subst. contradiction N. now left.
  - rewrite IH; [reflexivity|]. intros I. apply N. now right.
Qed.
Lemma split_last a : ~ In 45 a -> split_on (fun c => c =? 45) a = [a].
Proof.
  induction a as [|x a IH]; intros N; [reflexivity|]. cbn [split_on]. destruct (x =? 45) eqn:E.
  - apply N.eqb_eq in E. subst. contradiction N. now left.
  - rewrite IH; [reflexivity|]. intros I. apply N. now right.
Qed.
Lemma split_cases s : (~ In 45 s) \/ exists a r, s = a ++ 45 :: r /\ ~ In 45 a.
Proof.
  induction s as [|x s [IH|(a & r & -> & N)]]; [left; now intros []| |].
  - destruct (N.eq_dec x 45) as [->|Q]; [right; exists [], s; split; [reflexivity|now intros []]|left; intros [E|I]; auto].
  - right. destruct (N.eq_dec x 45) as [->|Q]; [exists [], (a ++ 45 :: r); split; [reflexivity|now intros []]|].
    exists (x :: a), r. split; [reflexivity|]. intros [E|I]; auto.
Qed.
Lemma third_part_iff name part : third_part name part <-> nth_error (split_on (fun c => c =? 45) name) 2 = Some part.
Proof.
  split.
  - intros (a & b & rest & -> & A & B & C & D). rewrite split_first, split_first by auto. cbn [nth_error].
    destruct D as [->|(r & ->)]; [rewrite app_nil_r, split_last by auto; reflexivity|now rewrite split_first].
  - destruct (split_cases name) as [N|(a & r & -> & A)]; [rewrite split_last by auto; discriminate|]. rewrite split_first by auto.
    destruct (split_cases r) as [N|(b & r2 & -> & B)]; [rewrite split_last by auto; discriminate|]. rewrite split_first by auto. cbn [nth_error].
    destruct (split_cases r2) as [N|(c & r3 & -> & C)]; [rewrite split_last by auto|rewrite split_first by auto]; cbn [nth_error]; intros E; injection E as <-.
    + exists a, b, []. rewrite app_nil_r. auto 10.
    + exists a, b, (45 :: r3). repeat split; auto. right. eauto.
Qed.
Lemma names_iff part c : names part c <-> c = category_of_name part.
Proof.
  assert (D : forall k, k <> OTHER -> category_of_name (category_word k) = k) by (intros []; easy).
  assert (E : category_of_name part <> OTHER -> part = category_word (category_of_name part)).
  { unfold category_of_name.
    destruct (bytes_eqb part (bs "zero")) eqn:E0; [intros _; now apply bytes_eqb_eq|].
    destruct (bytes_eqb part (bs "one")) eqn:E1; [intros _; now apply bytes_eqb_eq|].
    destruct (bytes_eqb part (bs "two")) eqn:E2; [intros _; now apply bytes_eqb_eq|].
    destruct (bytes_eqb part (bs "few")) eqn:E3; [intros _; now apply bytes_eqb_eq|].
    destruct (bytes_eqb part (bs "many")) eqn:E4; [intros _; now apply bytes_eqb_eq|]. now intros []. }
  split.
  - intros [[N ->]|[-> H]]; [now rewrite D|]. destruct (category_of_name part) eqn:Q; try reflexivity; exfalso;
      apply (H (category_of_name part)); rewrite Q; try discriminate; rewrite <- Q at 1; rewrite <- Q in E; apply E; rewrite Q; discriminate.
  - intros ->. destruct (category_of_name part) eqn:Q; try (left; split; [discriminate|]; apply E; discriminate).
    right. split; [reflexivity|]. intros k N X. subst part. rewrite D in Q; congruence.
Qed.
Lemma rule_reads_iff nt cc : rule_reads nt cc <->
  exists part, nth_error (split_on (fun c => c =? 45) (fst nt)) 2 = Some part /\
    fst cc = category_of_name part /\ parse_plural_condition (snd nt) = Ok (snd cc).
Proof.
  unfold rule_reads. split; intros (part & A & B & C); exists part; apply third_part_iff in A || rewrite third_part_iff; apply names_iff in B || rewrite names_iff; auto.
Qed.
Lemma lang_rules_ok r set : gen_lang_rules r = Ok set <->
  exists cs, Forall2 rule_reads r cs /\
    Forall2 (fun cc ce => fst cc = fst ce /\ gen_pr (snd cc) = Ok (snd ce)) (List.filter not_other cs) set.
Proof.
  revert set. induction r as [|[name text] r IH]; intros set; cbn [gen_lang_rules].
  - split.
    + intros H. injection H as <-. exists []. split; constructor.
    + intros (cs & A & B). inversion A; subst. now inversion B.
  - rewrite rbind_ok. unfold cat_name_of. split.
    + intros (part & P1 & H). apply unwrap_ok in P1. apply rbind_ok in H as (c & C & H).
      assert (PC : parse_plural_condition text = Ok c) by (destruct (parse_plural_condition text); congruence).
      destruct (category_of_name part) eqn:CN;
      try (apply rbind_ok in H as (ts & T & H); apply rbind_ok in H as (l & L & H); injection H as <-; apply IH in L as (cs & A & B);
        exists ((category_of_name part, c) :: cs); split; [constructor; [apply rule_reads_iff; exists part; auto|auto]|];
        cbn [List.filter]; unfold not_other at 1; cbn [fst]; rewrite CN; constructor; [auto|auto]).
      apply IH in H as (cs & A & B). exists ((OTHER, c) :: cs). split; [constructor; [apply rule_reads_iff; exists part; auto|auto]|]. exact B.
    + intros (cs & A & B). inversion A as [|? [c0 c] ? cs' RR A']; subst. apply rule_reads_iff in RR as (part & P1 & P2 & P3). cbn [fst snd] in *. exists part. rewrite P1. split; [reflexivity|].
      apply rbind_ok. exists c. rewrite P3. split; [reflexivity|]. cbn [List.filter] in B. unfold not_other at 1 in B. cbn [fst] in B. rewrite P2 in B.
      destruct (category_of_name part); try (inversion B as [|? [c1 ts] ? set' [X Y] B']; subst; cbn [fst snd] in *; subst c1;
        rewrite Y; cbn [rbind]; apply rbind_ok; exists set'; split; [apply IH; eauto|reflexivity]).
      apply IH. eauto.
Qed.
Lemma set_shape r set : gen_lang_rules r = Ok set ->
  Forall (fun ce => fst ce <> OTHER) set /\ Forall (fun ce => Forall no_brace (snd ce)) set.
Proof.
  intros H. apply lang_rules_ok in H as (cs & _ & B). split.
  - assert (K : Forall (fun cc => not_other cc = true) (List.filter not_other cs)) by (apply Forall_forall; intros x I; now apply filter_In in I).
    induction B as [|[c co] [c' ts] ? ? [X Y] B IH]; constructor; inversion K as [|? ? K1 K2]; subst; auto. cbn in *. subst c'. now destruct c.
  - induction B as [|[c co] [c' ts] ? ? [X Y] B IH]; constructor; auto. now apply gen_pr_no_brace in Y.
Qed.

(** the tables as read *)
Definition entry_reads (ir : langid * bmap bytes) (e : langid * body) : Prop :=
  fst e = drop_variants (fst ir) /\ b_else (snd e) = OTHER /\
  exists cs, Forall2 rule_reads (snd ir) cs /\
    Forall2 (fun cc arm => snd arm = fst cc /\ exists ts, gen_pr (snd cc) = Ok ts /\ read_bexpr ts = Some (fst arm))
      (List.filter not_other cs) (b_arms (snd e)).
Lemma read_lang_known id l : read_langid (lang_args id) = Some l -> lang_known id.
Proof.
  unfold lang_known. intros H E. unfold lang_args, gen_langid, Par in H. rewrite E in H. unfold read_langid in H.
  set (b := match li_script id with Some _ => _ | None => _ end) in H. set (c := match li_region id with Some _ => _ | None => _ end) in H.
  assert (FB : free (bs ",") b) by (unfold b; destruct (li_script id); repeat constructor).
  assert (FC : free (bs ",") c) by (unfold c; destruct (li_region id); repeat constructor).
  change ([I "None"] ++ [P ","] ++ b ++ [P ","] ++ c) with ([I "None"] ++ TPunct (bs ",") :: (b ++ TPunct (bs ",") :: c)) in H.
  rewrite !split_app, split_free in H by (auto; repeat constructor). discriminate.
Qed.
Lemma entry_ok id r set e : id_ok id -> gen_lang_rules r = Ok set -> read_entry (gen_mid id set) = Some e -> entry_reads (id, r) e.
Proof.
  intros V G R. destruct (set_shape _ _ G) as [A B]. rewrite read_mid in R by auto.
  destruct (read_langid (lang_args id)) as [l|] eqn:L; [|discriminate]. destruct (map_opt read_arm set) as [arms|] eqn:M; [|discriminate].
  assert (E : e = (l, mkBody arms OTHER)) by congruence. subst e. clear R.
  pose proof (read_lang_known _ _ L) as K. rewrite read_gen_langid in L by auto. injection L as <-.
  split; [reflexivity|]. split; [reflexivity|]. apply lang_rules_ok in G as (cs & C1 & C2). exists cs. split; [auto|]. cbn [b_arms snd].
  apply map_opt_some in M. clear - C2 M. revert arms M. induction C2 as [|[c co] [c' ts] ? ? [X Y] F IH]; intros arms M; inversion M as [|? [e0 c0] ? arms' R M']; subst; constructor; auto.
  cbn [fst snd] in *. unfold read_arm in R. cbn [fst snd] in R. destruct (read_bexpr ts) as [e1|] eqn:RB; [|discriminate].
  cbn in R. injection R as -> ->. split; [auto|]. exists ts. auto.
Qed.
Lemma keys_valid d l : parse_keys d = Ok l -> Forall (fun ir : langid * bmap bytes => id_ok (fst ir)) l.
Proof.
  intros H. apply parse_keys_ok in H. induction H as [|? ? ? ? [A B] F IH]; constructor; auto. now apply langid_ok in A.
Qed.
Lemma table_entries srt rs t out tbl : sorts srt -> table_for srt rs t out -> output_table t out = Some tbl ->
  exists r d l, In r rs /\ data_of t r = Some d /\ parse_keys d = Ok l /\ Forall2 entry_reads (srt _ l) tbl.
Proof.
  intros S T O. destruct T as [_ N|r d l ts R D P U G F H K T].
  - exfalso. apply N. unfold output_has, output_table in *. destruct (lex out); [|easy]. now destruct (table_tokens _ _).
  - exists r, d, l. split; [auto|]. split; [auto|]. split; [auto|]. rewrite T in O. apply map_opt_some in O.
    pose proof (keys_valid _ _ P) as V. assert (V' : Forall (fun ir : langid * bmap bytes => id_ok (fst ir)) (srt _ l)).
    { exact (Permutation_Forall (proj1 (S _ l)) V). }
    clear - F O V'. revert tbl O. induction F as [|[id r] s ? ? (set & G & ->) F IH]; intros tbl O; inversion O as [|? e ? tbl' R O']; subst; constructor.
    + inversion V'; subst. eapply entry_ok; eauto.
    + inversion V'; subst. auto.
Qed.
End Width.
