(** * Property C107: the CLDR 33 fixture against the shipped tables *)
From Verif Require Import Base Operands Ast LangId GenRs RustExpr PluralRules Tables FileSpec Fixtures TextFix33 Conformance Order Update.
Open Scope N_scope.

(** C107.  [tbl] is the table of the fixture cldr_pluralrules_33.rs; [added], [removed] and [names] are lists of locales *)
Theorem C107_update t tbl how : output_table t (trim fixture33_rs) = Some tbl ->
  (forall id old, create_in how tbl id = Ok old -> (exists pr, create how id t = Ok pr) <-> ~ In id (removed t)) /\
  (forall id pr, create how id t = Ok pr -> (exists old, create_in how tbl id = Ok old) <-> ~ In id (added t)) /\
  forall id old pr, create_in how tbl id = Ok old -> create how id t = Ok pr ->
    ((forall w x, select w old x = select w pr x) <-> ~ (t = CARDINAL /\ In id (names ["kw"; "mo"; "mr"; "ro"]%string))) /\
    ((forall x d, ordinary x d -> select W64 old x = select W64 pr x) <-> ~ (t = CARDINAL /\ In id (names ["kw"; "mr"]%string))).
Proof. exact (C107_lemma t tbl how). Qed.
Print Assumptions C107_update.
(** both tables of the fixture can be read *)
Theorem C107_fixture t : exists tbl, output_table t (trim fixture33_rs) = Some tbl /\
  List.length tbl = match t with CARDINAL => 204%nat | ORDINAL => 92%nat end.
Proof. exists (prs33 t). split; [exact (prs33_read t)|]. destruct t; vm_compute; reflexivity. Qed.
Print Assumptions C107_fixture.
(** Marathi 0 and Cornish 23 have another category; Romanian "15e-1" too, but 0, 1, 19, 101 and 1.5 do not *)
Definition category33 (id : string) (s : string) : res category :=
  let? pr := create_in Halving (prs33 CARDINAL) (lang id) in select W64 pr (InStr (bs s)).
Definition category37 (id : string) (s : string) : res category :=
  let? pr := create Halving (lang id) CARDINAL in select W64 pr (InStr (bs s)).
Example C107_case :
  (category33 "mr" "0", category37 "mr" "0") = (Ok ONE, Ok OTHER) /\
  (category33 "kw" "23", category37 "kw" "23") = (Ok OTHER, Ok FEW) /\
  (category33 "ro" "15e-1", category37 "ro" "15e-1") = (Ok FEW, Ok ONE) /\
  List.map (category33 "ro") ["0"; "1"; "19"; "101"; "1.5"]%string = [Ok FEW; Ok ONE; Ok FEW; Ok OTHER; Ok FEW] /\
  List.map (category37 "ro") ["0"; "1"; "19"; "101"; "1.5"]%string = [Ok FEW; Ok ONE; Ok FEW; Ok OTHER; Ok FEW] /\
  category33 "bh" "0" = Ok ONE /\ category37 "bh" "0" = Err "unknown locale" /\
  category33 "sc" "1" = Err "unknown locale" /\ category37 "sc" "1" = Ok ONE.
Proof. do 8 (split; [vm_compute; reflexivity|]). vm_compute. reflexivity. Qed.
