(** * The shipped tables of intl_pluralrules/src/rules.rs

    Read from the text of the file ([TextRules.rules_rs]); the constants below
    hold the computed values. *)
From Verif Require Import Base LangId Tokens GenRs RustExpr PluralRules Json CldrParser MakeRules Ast.
From Verif Require Import TextRules TextCardinals37 TextOrdinals37.
Open Scope N_scope.

(** the file as read *)
Definition shipped_file : option rules_file := option_map read_file (lex rules_rs).
Definition shipped :=
  Eval vm_compute in match shipped_file with Some f => f | None => mkFile None None None end.
Lemma shipped_correct : shipped_file = Some shipped.
Proof. vm_compute. reflexivity. Qed.

(** rules.rs:10 [CLDR_VERSION], rules.rs:16 [PRS_CARDINAL], rules.rs:2450 [PRS_ORDINAL] *)
Definition CLDR_VERSION : N := Eval vm_compute in match rf_version shipped with Some v => v | None => 0 end.
Definition PRS_CARDINAL := Eval vm_compute in match rf_cardinal shipped with Some t => t | None => [] end.
Definition PRS_ORDINAL := Eval vm_compute in match rf_ordinal shipped with Some t => t | None => [] end.
Lemma shipped_tables : shipped = mkFile (Some CLDR_VERSION) (Some PRS_CARDINAL) (Some PRS_ORDINAL).
Proof. vm_compute. reflexivity. Qed.

Definition prs (t : pr_type) : table :=
  match t with CARDINAL => PRS_CARDINAL | ORDINAL => PRS_ORDINAL end.
(** lib.rs:101-123 [create] and lib.rs:163-169 [get_locales] *)
Definition create (how : std_search) (id : langid) (t : pr_type) : res plural_rules :=
  create_in how (prs t) id.
Definition get_locales (t : pr_type) : list langid := get_locales_in (prs t).
