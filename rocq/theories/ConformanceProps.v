(** * Lemmas behind C29-C31 and C45 *)
From Coq Require Import Lia Floats.SpecFloat.
From Verif Require Import Base F64 Operands Ast LangId GenRs GenPr RustExpr PluralRules Tables Json Cldr Spec
  LangIdFacts ApiProps OperandsProps GenFacts GenMeaning Represents Conformance.
Open Scope N_scope.

Lemma follows_str how id t pr w s d :
  create how id t = Ok pr -> numeral s d -> small d ->
  ~ In id (integer_wrong t) -> (In id (fraction_wrong t) -> integral d = true) ->
  exists rules c, In (id, rules) (cldr t) /\ select w pr (InStr s) = Ok c /\ cldr_select rules d c.
Proof.
  intros C Nm Sm NI NF. destruct (numeral_represents s d Nm Sm) as (po & E & R).
  apply (follows how id t pr w (InStr s) po d); auto.
  - exact (numeral_proper s d Nm).
  - intro H. now apply N.eqb_eq, NF.
Qed.
Lemma follows_unsigned how id t pr w x :
  create how id t = Ok pr -> x < 2 ^ 64 -> ~ In id (integer_wrong t) ->
  exists rules c, In (id, rules) (cldr t) /\ select w pr (InUnsigned x) = Ok c /\ cldr_select rules (mkDecimal x []) c.
Proof.
  intros C X NI. apply (follows how id t pr w (InUnsigned x) (operands_from_unsigned x)); auto.
  - now apply unsigned_represents.
  - constructor.
Qed.
Lemma follows_signed how id t pr z :
  create how id t = Ok pr -> (Z.abs z < 2 ^ 63)%Z -> ~ In id (integer_wrong t) ->
  exists rules c, In (id, rules) (cldr t) /\ select W64 pr (InSigned z) = Ok c /\
    cldr_select rules (mkDecimal (Z.to_N (Z.abs z)) []) c.
Proof.
  intros C X NI.
  apply (follows how id t pr W64 (InSigned z) (operands_from_unsigned (Z.to_N (Z.abs z)))); auto.
  - cbn [to_operands]. unfold operands_from_signed. cbn [isize_bits]. change (64 - 1)%Z with 63%Z.
    rewrite wrap_small by (change (64 - 1)%Z with 63%Z; lia). cbv zeta.
    destruct (Z.eqb_spec z (- 2 ^ 63)); [lia|]. reflexivity.
  - apply unsigned_represents. lia.
  - constructor.
Qed.

(** ** Witnesses *)
Definition wrong_on (t : pr_type) (id : langid) (s : bytes) (d : decimal) : Prop :=
  exists pr rules c, create Halving id t = Ok pr /\ In (id, rules) (cldr t) /\
    select W64 pr (InStr s) = Ok c /\ ~ cldr_select rules d c.
Definition wrong_onb (t : pr_type) (id : langid) (s : bytes) (d : decimal) : bool :=
  match create Halving id t, find_rules t id with
  | Ok pr, Some rules => match select W64 pr (InStr s) with Ok c => negb (cldr_selectb rules d c) | _ => false end
  | _, _ => false
  end.
Lemma wrong_onb_sound t id s d : wrong_onb t id s d = true -> wrong_on t id s d.
Proof.
  unfold wrong_onb, wrong_on. destruct (create Halving id t) as [pr| |]; try discriminate.
  destruct (find_rules t id) as [rules|] eqn:F; try discriminate.
  destruct (select W64 pr (InStr s)) as [c| |] eqn:Q; try discriminate. intro H.
  exists pr, rules, c. split; [reflexivity|]. split; [now apply find_rules_in|]. split; [exact Q|].
  intro K. apply cldr_selectb_iff in K. now rewrite K in H.
Qed.
Definition integer_witness (t : pr_type) : list (langid * N) :=
  match t with
  | CARDINAL => [(lang "ar", 103); (lang "ars", 103); (lang "be", 15); (lang "br", 23); (lang "kw", 101000);
                 (lang "lt", 22); (lang "lv", 111); (lang "mo", 102); (lang "mt", 102); (lang "prg", 111); (lang "ro", 102)]
  | ORDINAL => [(lang "kw", 101)]
  end.
Definition fraction_witness (t : pr_type) : list (langid * N) :=
  match t with
  | CARDINAL => []
  | ORDINAL => [(lang "be", 2); (lang "en", 1); (lang "kk", 0); (lang "sq", 4); (lang "sv", 1); (lang "tk", 6); (lang "uk", 3)]
  end.
Lemma dec_of_N_numeral x : numeral (dec_of_N x) (mkDecimal x []).
Proof.
  destruct (DigitFacts.dec_of_N_spec x) as (D & V & N & _).
  exists [], (dec_of_N x), []. repeat split; auto; [now left|constructor|now rewrite app_nil_r|now rewrite V].
Qed.
Lemma dec_half_numeral x : numeral (dec_of_N x ++ bs ".5") (mkDecimal x [5]).
Proof.
  destruct (DigitFacts.dec_of_N_spec x) as (D & V & N & _).
  exists [], (dec_of_N x), (bs "5"). repeat split; auto; [now left| |now rewrite V].
  repeat constructor; unfold digit_char; easy.
Qed.
Lemma integer_wrong_witness t id : In id (integer_wrong t) ->
  exists s d, numeral s d /\ small d /\ integral d = true /\ wrong_on t id s d.
Proof.
  assert (A : forallb (fun '(l, x) => wrong_onb t l (dec_of_N x) (mkDecimal x []) && (x <? 2 ^ 53)) (integer_witness t) = true)
    by (destruct t; vm_compute; reflexivity).
  assert (M : integer_wrong t = List.map fst (integer_witness t)) by (destruct t; reflexivity).
  rewrite M. intro I. apply in_map_iff in I as ((l & x) & E & I). cbn in E. subst l.
  rewrite forallb_forall in A. specialize (A _ I). cbn beta iota in A. apply andb_prop in A as [A B].
  apply N.ltb_lt in B. exists (dec_of_N x), (mkDecimal x []). split; [apply dec_of_N_numeral|].
  split; [|split; [reflexivity|now apply wrong_onb_sound]].
  unfold small, uts_num, uts_den, uts_v, uts_f. cbn. split; lia.
Qed.
Lemma fraction_wrong_witness t id : In id (fraction_wrong t) ->
  exists s d, numeral s d /\ small d /\ wrong_on t id s d.
Proof.
  assert (A : forallb (fun '(l, x) => wrong_onb t l (dec_of_N x ++ bs ".5") (mkDecimal x [5]) && (x <? 2 ^ 40)) (fraction_witness t) = true)
    by (destruct t; vm_compute; reflexivity).
  assert (M : fraction_wrong t = List.map fst (fraction_witness t)) by (destruct t; reflexivity).
  rewrite M. intro I. apply in_map_iff in I as ((l & x) & E & I). cbn in E. subst l.
  rewrite forallb_forall in A. specialize (A _ I). cbn beta iota in A. apply andb_prop in A as [A B].
  apply N.ltb_lt in B. exists (dec_of_N x ++ bs ".5"), (mkDecimal x [5]). split; [apply dec_half_numeral|].
  split; [|now apply wrong_onb_sound].
  unfold small, uts_num, uts_den, uts_v, uts_f. cbn. split; lia.
Qed.
Lemma lists_lemma t :
  (forall id, In id (fraction_wrong t ++ integer_wrong t) -> In id (get_locales t)) /\
  (forall id, In id (fraction_wrong t) -> ~ In id (integer_wrong t)).
Proof.
  assert (A : forallb (fun id => mem id (get_locales t)) (fraction_wrong t ++ integer_wrong t) = true)
    by (destruct t; vm_compute; reflexivity).
  assert (B : forallb (fun id => negb (mem id (integer_wrong t))) (fraction_wrong t) = true)
    by (destruct t; vm_compute; reflexivity).
  rewrite forallb_forall in A, B. split; intros id I.
  - apply mem_in. now apply A.
  - intro J. apply mem_in in J. specialize (B _ I). now rewrite J in B.
Qed.

Lemma represents_str s d po : numeral s d -> small d -> operands_from_str s = Ok po -> represents po d.
Proof. intros Nm Sm E. destruct (numeral_represents s d Nm Sm) as (po' & E' & R). congruence. Qed.

(** ** C45 *)
Lemma C45_lemma ai c s d :
  supported ai c = true -> numeral s d -> small d -> (ai = true -> integral d = true) ->
  exists ts e po, gen_pr c = Ok ts /\ read_bexpr ts = Some e /\ operands_from_str s = Ok po /\
    eval e po = Ok (uts_condition c d).
Proof.
  intros S Nm Sm AI. destruct (numeral_represents s d Nm Sm) as (po & E & R).
  destruct (cond_ok ai c po d R (numeral_proper s d Nm)) as (ts & e & G & RB & V); auto.
  - intro H. now apply N.eqb_eq, AI.
  - exists ts, e, po. auto.
Qed.
Lemma C45_unsigned ai c x : supported ai c = true -> x < 2 ^ 64 ->
  exists ts e, gen_pr c = Ok ts /\ read_bexpr ts = Some e /\
    eval e (operands_from_unsigned x) = Ok (uts_condition c (mkDecimal x [])).
Proof.
  intros S X. apply (cond_ok ai c); auto; [now apply unsigned_represents|constructor].
Qed.
