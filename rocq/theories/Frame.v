(** * C104: the text of a generated file around its tables *)
From Coq Require Import Lia.
From Verif Require Import Base Ast LangId Tokens DigitFacts LexFacts GenRs Json MakeRules FileSpec MakeFacts MakeRead MakeProps.
Open Scope N_scope.

(** ** What every generated file says, gen_rs.rs:11-38 and 52-63 *)
Definition before_version : bytes := bs (String.append
  "# ! [allow (unused_variables , unused_parens)] # ! [cfg_attr (feature = ""cargo-clippy"" , allow (clippy :: float_cmp))] " (String.append
  "# ! [cfg_attr (feature = ""cargo-clippy"" , allow (clippy :: unreadable_literal))] " (String.append
  "# ! [cfg_attr (feature = ""cargo-clippy"" , allow (clippy :: nonminimal_bool))] " (String.append
  "use super :: operands :: PluralOperands ; use super :: PluralCategory ; " (String.append
  "use unic_langid :: LanguageIdentifier ; use unic_langid :: subtags ; "
  "pub type PluralRule = fn (& PluralOperands) -> PluralCategory ; pub static CLDR_VERSION : usize = "))))).
Definition after_version : bytes := bs (String.append
  " ; macro_rules ! langid { ($ lang : expr , $ script : expr , $ region : expr) => "
  "{ { unsafe { LanguageIdentifier :: from_raw_parts_unchecked ($ lang , $ script , $ region , None ,) } } } ; }").
Definition table_text (name : string) (entries : bytes) : bytes :=
  bs " pub const " ++ bs name ++ bs " : & [(LanguageIdentifier , PluralRule)] = & [" ++ entries ++ bs "] ;".
(** one table for each kind of data there is *)
Definition table_of (t : pr_type) (rs : list supplemental) (text : bytes) : Prop :=
  (Forall (fun r => data_of t r = None) rs /\ text = []) \/
  (Exists (fun r => data_of t r <> None) rs /\
   exists entries, text = table_text (match t with CARDINAL => "PRS_CARDINAL" | ORDINAL => "PRS_ORDINAL" end) entries).
Definition printable (b : bytes) : Prop := Forall (fun c => 32 <= c <= 126) b.

(** ** Printing *)
Lemma print_app a b : a <> [] -> b <> [] -> print_tokens (a ++ b) = print_tokens a ++ 32 :: print_tokens b.
Proof.
  intros A B. induction a as [|t a IH]; [easy|]. destruct a as [|u a].
  - cbn [app print_tokens]. destruct b; [easy|reflexivity].
  - change (print_tokens ((t :: u :: a) ++ b)) with (print_token t ++ 32 :: print_tokens ((u :: a) ++ b)).
    rewrite IH by easy. cbn [print_tokens]. now rewrite <- app_assoc.
Qed.

Lemma ident_printable w : forallb is_ident_cont w = true -> printable w.
Proof.
  intro H. apply Forall_forall. intros c I. rewrite forallb_forall in H. specialize (H c I).
  unfold is_ident_cont, is_alnum, is_alpha, is_digit in H. lia.
Qed.
Lemma app_printable a b : printable a -> printable b -> printable (a ++ b).
Proof. intros. now apply Forall_app. Qed.
Lemma printable_text b : forallb (fun c => (32 <=? c) && (c <=? 126)) b = true -> printable b.
Proof. intro H. apply Forall_forall. intros c I. rewrite forallb_forall in H. specialize (H c I). lia. Qed.

Lemma join_printable ts : Forall (fun t => printable (print_token t)) ts -> printable (print_tokens ts).
Proof.
  induction 1 as [|t ts T F IH]; [constructor|]. destruct ts as [|u ts]; [exact T|].
  change (print_tokens (t :: u :: ts)) with (print_token t ++ 32 :: print_tokens (u :: ts)).
  apply app_printable; [exact T|]. constructor; [lia|exact IH].
Qed.
Fixpoint token_printable (t : token) : wf_token t -> printable (print_token t).
Proof.
  destruct t as [w|p|w|d ts]; intro W.
  - cbn [print_token wf_token] in *. destruct w as [|c w]; [discriminate|]. cbn [wf_ident] in W. apply andb_prop in W as [_ W].
    now apply ident_printable.
  - cbn [print_token wf_token] in *. apply printable_text.
    assert (A : forallb (forallb (fun c => (32 <=? c) && (c <=? 126))) puncts = true) by reflexivity.
    rewrite forallb_forall in A. now apply A.
  - cbn [print_token wf_token] in *. destruct W as [W|(b & -> & W)].
    + destruct w as [|c w]; [discriminate|]. cbn [wf_number] in W. apply andb_prop in W as [_ W]. now apply ident_printable.
    + constructor; [lia|]. apply app_printable; [|repeat constructor; lia].
      apply Forall_forall. intros c I. rewrite forallb_forall in W. specialize (W c I). lia.
  - rewrite print_group. apply app_printable; [apply printable_text; now destruct d|].
    apply app_printable; [|apply printable_text; now destruct d]. apply join_printable.
    induction ts as [|t ts IH]; [constructor|]. destruct W as [W1 W2]. constructor; [now apply token_printable|].
    apply IH. exact W2.
Qed.
Lemma tokens_printable ts : wf_tokens ts -> printable (print_tokens ts).
Proof. intro W. apply join_printable. eapply Forall_impl; [|exact W]. apply token_printable. Qed.

Section Width.
Context {ptr : ptr_width}.

Lemma C104_printable srt jsons out : generate_rs srt jsons = Ok out -> printable out.
Proof.
  intro H. apply generate_ok in H as (rs & v & num & c & o & I & G & ->). apply tokens_printable.
  apply file_wf; [exact (part_wf _ _ _ (ok_cardinal _ _ _ _ _ _ G))|exact (part_wf _ _ _ (ok_ordinal _ _ _ _ _ _ G))].
Qed.

Lemma head_text num rest : print_tokens (ignore_noncritical_errors ++ use_statements ++ plural_function ++ version_item num ++ langid_macro ++ rest) =
  before_version ++ dec_of_N num ++ after_version ++ match rest with [] => [] | _ => 32 :: print_tokens rest end.
Proof.
  assert (H : print_tokens (ignore_noncritical_errors ++ use_statements ++ plural_function ++ version_item num ++ langid_macro) =
    before_version ++ dec_of_N num ++ after_version).
  { unfold version_item. change ([I "pub"; I "static"; I "CLDR_VERSION"; P ":"; I "usize"; P "="; lit_u64 num; P ";"])
      with ([I "pub"; I "static"; I "CLDR_VERSION"; P ":"; I "usize"; P "="] ++ [lit_u64 num] ++ [P ";"]).
    rewrite <- !app_assoc.
    rewrite (app_assoc plural_function), (app_assoc use_statements), (app_assoc ignore_noncritical_errors).
    rewrite (print_app _ ([lit_u64 num] ++ [P ";"] ++ langid_macro)) by discriminate.
    rewrite (print_app [lit_u64 num]) by discriminate.
    change (print_tokens [lit_u64 num]) with (dec_of_N num).
    change after_version with (32 :: print_tokens ([P ";"] ++ langid_macro)).
    change before_version with (print_tokens (ignore_noncritical_errors ++ use_statements ++ plural_function ++
      [I "pub"; I "static"; I "CLDR_VERSION"; P ":"; I "usize"; P "="]) ++ [32]).
    now rewrite <- app_assoc. }
  destruct rest as [|t rest]; [now rewrite !app_nil_r, H|].
  rewrite !app_assoc. rewrite print_app; [|discriminate|discriminate]. rewrite <- !app_assoc, H. now rewrite <- !app_assoc.
Qed.
Lemma table_stream_text t s : print_tokens (create_pr_type t s) =
  bs "pub const " ++ bs (match t with CARDINAL => "PRS_CARDINAL" | ORDINAL => "PRS_ORDINAL" end) ++
  bs " : & [(LanguageIdentifier , PluralRule)] = & [" ++ print_tokens (sep_by [P ","] s) ++ bs "] ;".
Proof.
  unfold create_pr_type. set (e := sep_by [P ","] s).
  change ([I "pub"; I "const"; pr_name t; P ":"; P "&"; Bracket [Par [I "LanguageIdentifier"; P ","; I "PluralRule"]]; P "="; P "&"; Bracket e; P ";"])
    with ([I "pub"; I "const"; pr_name t; P ":"; P "&"; Bracket [Par [I "LanguageIdentifier"; P ","; I "PluralRule"]]; P "="; P "&"] ++ [Bracket e] ++ [P ";"]).
  rewrite print_app by discriminate. rewrite print_app by discriminate.
  change (print_tokens [Bracket e]) with (print_token (Bracket e)). unfold Bracket at 2. rewrite print_group.
  rewrite <- !app_assoc. destruct t; reflexivity.
Qed.

Lemma C104_lemma srt jsons rs out : inputs_are jsons rs -> generate_rs srt jsons = Ok out ->
  exists v z c o, Forall (fun r => version_of r = v) rs /\ version_number v z /\ table_of CARDINAL rs c /\ table_of ORDINAL rs o /\
    out = before_version ++ dec_of_N (Z.to_N (z mod 2 ^ 64)) ++ after_version ++ c ++ o.
Proof.
  intros IR H. apply generate_ok in H as (rs' & v & num & c & o & I & G & ->). rewrite (inputs_unique jsons rs rs' IR I) in *.
  destruct G as [V N C O S].
  assert (T : forall t p, part_ok srt None (collect t rs') p ->
    exists text, table_of t rs' text /\ (p = None -> text = []) /\ forall s, p = Some s -> text = 32 :: print_tokens (create_pr_type t s)).
  { intros t p K. unfold part_ok in K. destruct (collect t rs') as [|d [|]] eqn:E; [| |easy].
    - exists []. split; [|subst p; split; [easy|discriminate]]. left. split; [|reflexivity]. apply Forall_forall. intros r J.
      destruct (data_of t r) eqn:D; [|reflexivity]. exfalso.
      assert (X : In r0 (collect t rs')) by (apply in_flat_map; exists r; split; [exact J|rewrite D; now left]). rewrite E in X. easy.
    - destruct K as (_ & ts & _ & ->). exists (32 :: print_tokens (create_pr_type t ts)). split; [|split; [discriminate|intros s Q; now injection Q as <-]].
      right. split.
      + assert (X : In d (collect t rs')) by (rewrite E; now left). apply in_flat_map in X as (r & J & X).
        apply Exists_exists. exists r. split; [exact J|]. now destruct (data_of t r).
      + exists (print_tokens (sep_by [P ","] ts)). unfold table_text. rewrite table_stream_text. reflexivity. }
  destruct (T CARDINAL c C) as (ct & TC & C0 & C1). destruct (T ORDINAL o O) as (ot & TO & O0 & O1).
  exists v, num, ct, ot. split; [exact V|]. split; [now apply isize_iff|]. split; [exact TC|]. split; [exact TO|].
  unfold file_tokens. rewrite head_text. do 3 f_equal.
  destruct c as [s|], o as [s'|]; cbn [table_stream].
  - rewrite (C1 s eq_refl), (O1 s' eq_refl). cbn [app].
    destruct (create_pr_type CARDINAL s ++ create_pr_type ORDINAL s') eqn:Q; [discriminate|]. rewrite <- Q.
    now rewrite print_app by discriminate.
  - rewrite (C1 s eq_refl), (O0 eq_refl), !app_nil_r. reflexivity.
  - rewrite (C0 eq_refl), (O1 s' eq_refl). reflexivity.
  - rewrite (C0 eq_refl), (O0 eq_refl). reflexivity.
Qed.
End Width.
