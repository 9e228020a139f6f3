(** * Which categories are taken for which on fractions (for C132) *)
From Coq Require Import Lia ZifyBool ZifyN Floats.SpecFloat.
From Flocq Require Import Core IEEE754.BinarySingleNaN.
From Verif Require Import Base F64 SpecR Operands Ast LangId GenRs RustExpr PluralRules Tables Cldr Spec
  LangIdFacts ApiProps GenMeaning Represents Conformance ConformanceProps Exclusive WrongSpec WrongProps FloatConf WrongFloat.
Open Scope N_scope.

(** the category of CLDR and the one that [select] answers instead, for numbers with a fraction *)
Definition frac_confusions (t : pr_type) : list (langid * list (category * category)) :=
  match t with
  | CARDINAL =>
      [(lang "ar", [(OTHER, FEW); (OTHER, MANY)]); (lang "ars", [(OTHER, FEW); (OTHER, MANY)]);
       (lang "be", [(OTHER, ONE); (OTHER, FEW); (OTHER, MANY)]);
       (lang "br", [(OTHER, ONE); (OTHER, TWO); (OTHER, FEW); (OTHER, MANY)]);
       (lang "kw", [(OTHER, TWO); (OTHER, FEW); (OTHER, MANY)]);
       (lang "lt", [(MANY, FEW)]);
       (lang "lv", [(OTHER, ONE); (OTHER, ZERO); (ZERO, ONE)]); (lang "prg", [(OTHER, ONE); (OTHER, ZERO); (ZERO, ONE)]);
       (lang "mt", [(OTHER, FEW); (OTHER, MANY)])]
  | ORDINAL =>
      [(lang "kw", [(OTHER, ONE); (OTHER, MANY)]); (lang "be", [(OTHER, FEW)]); (lang "en", [(OTHER, ONE); (OTHER, TWO); (OTHER, FEW)]);
       (lang "kk", [(OTHER, MANY)]); (lang "sq", [(OTHER, MANY)]); (lang "sv", [(OTHER, ONE)]); (lang "tk", [(OTHER, FEW)]); (lang "uk", [(OTHER, FEW)])]
  end.

(** ** One locale *)
Definition fsettled (t : pr_type) (id : langid) (l : list (category * category)) : Prop :=
  exists b rules, find_body t id = Some b /\ find_rules t id = Some rules /\ x_rules rules = true /\
    forall i v f, (f =? 0) = false -> (v = 0 -> f = 0) ->
    exists c, y_arms (b_arms b) (b_else b) i v f = Some c /\ forall c', x_select rules i v f c' = true -> c = c' \/ In (c', c) l.
Ltac open_frac :=
  unfold fsettled;
  match goal with |- exists b rules, find_body ?t ?id = _ /\ _ =>
    let b := eval vm_compute in (find_body t id) in
    let r := eval vm_compute in (find_rules t id) in
    match b with Some ?b => match r with Some ?r =>
      exists b, r; split; [vm_compute; reflexivity|]; split; [vm_compute; reflexivity|]; split; [vm_compute; reflexivity|]
    end end
  end;
  intros i v f F0 H; cbv -[N.modulo N.eqb N.leb N.ltb andb orb negb In]; eexists; split; [reflexivity|];
  intros c' S; rewrite ?F0 in S; rewrite ?F0; destruct c'; cbn [andb orb negb] in *; rewrite ?Bool.andb_false_r in S; cbn [andb orb negb] in S; try discriminate.
Ltac close_frac := split_case; cbn [In]; first [tauto|exfalso; lia].
Lemma fcardinal_ar : fsettled CARDINAL (lang "ar") [(OTHER, FEW); (OTHER, MANY)].
Proof. open_frac; close_frac. Qed.
Lemma fcardinal_ars : fsettled CARDINAL (lang "ars") [(OTHER, FEW); (OTHER, MANY)].
Proof. open_frac; close_frac. Qed.
Lemma fcardinal_be : fsettled CARDINAL (lang "be") [(OTHER, ONE); (OTHER, FEW); (OTHER, MANY)].
Proof. open_frac; close_frac. Qed.
Lemma fcardinal_br : fsettled CARDINAL (lang "br") [(OTHER, ONE); (OTHER, TWO); (OTHER, FEW); (OTHER, MANY)].
Proof. open_frac; close_frac. Qed.
Lemma fcardinal_kw : fsettled CARDINAL (lang "kw") [(OTHER, TWO); (OTHER, FEW); (OTHER, MANY)].
Proof. open_frac; close_frac. Qed.
Lemma fcardinal_mt : fsettled CARDINAL (lang "mt") [(OTHER, FEW); (OTHER, MANY)].
Proof. open_frac; close_frac. Qed.
Lemma fordinal_kw : fsettled ORDINAL (lang "kw") [(OTHER, ONE); (OTHER, MANY)].
Proof. open_frac; close_frac. Qed.
Lemma fordinal_be : fsettled ORDINAL (lang "be") [(OTHER, FEW)].
Proof. open_frac; close_frac. Qed.
Lemma fordinal_en : fsettled ORDINAL (lang "en") [(OTHER, ONE); (OTHER, TWO); (OTHER, FEW)].
Proof. open_frac; close_frac. Qed.
Lemma fordinal_kk : fsettled ORDINAL (lang "kk") [(OTHER, MANY)].
Proof. open_frac; close_frac. Qed.
Lemma fordinal_sq : fsettled ORDINAL (lang "sq") [(OTHER, MANY)].
Proof. open_frac; close_frac. Qed.
Lemma fordinal_sv : fsettled ORDINAL (lang "sv") [(OTHER, ONE)].
Proof. open_frac; close_frac. Qed.
Lemma fordinal_tk : fsettled ORDINAL (lang "tk") [(OTHER, FEW)].
Proof. open_frac; close_frac. Qed.
Lemma fordinal_uk : fsettled ORDINAL (lang "uk") [(OTHER, FEW)].
Proof. open_frac; close_frac. Qed.
Lemma fcardinal_lt : fsettled CARDINAL (lang "lt") [(MANY, FEW)].
Proof. open_frac; close_frac. Qed.
Lemma fcardinal_lv : fsettled CARDINAL (lang "lv") [(OTHER, ONE); (OTHER, ZERO); (ZERO, ONE)].
Proof. open_frac; close_frac. Qed.
Lemma fcardinal_prg : fsettled CARDINAL (lang "prg") [(OTHER, ONE); (OTHER, ZERO); (ZERO, ONE)].
Proof. open_frac; close_frac. Qed.
Lemma table_fsettled t id l : In (id, l) (frac_confusions t) -> fsettled t id l.
Proof.
  destruct t; intro H; cbn [frac_confusions In] in H;
    repeat (destruct H as [H|H]; [injection H as <- <-|]); try destruct H.
  - exact fcardinal_ar.
  - exact fcardinal_ars.
  - exact fcardinal_be.
  - exact fcardinal_br.
  - exact fcardinal_kw.
  - exact fcardinal_lt.
  - exact fcardinal_lv.
  - exact fcardinal_prg.
  - exact fcardinal_mt.
  - exact fordinal_kw.
  - exact fordinal_be.
  - exact fordinal_en.
  - exact fordinal_kk.
  - exact fordinal_sq.
  - exact fordinal_sv.
  - exact fordinal_tk.
  - exact fordinal_uk.
Qed.

(** ** All locales *)
(** the locales that are only wrong on integers *)
Definition whole_only (t : pr_type) : list langid := match t with CARDINAL => [lang "mo"; lang "ro"] | ORDINAL => [] end.
Lemma wrong_listed t : forallb (fun e => existsb (langid_eqb (fst e)) (map fst (frac_confusions t) ++ whole_only t)) (wrong_table t) = true.
Proof. destruct t; vm_compute; reflexivity. Qed.
Lemma whole_only_part t id d : In id (whole_only t) -> uts_f d <> 0 -> wrong_number t id d = false.
Proof.
  intros I F. assert (V : (uts_v d =? 0) = false) by (apply N.eqb_neq; intro V; exact (F (uts_v_0 d V))).
  destruct t; cbn [whole_only In] in I; [|destruct I]. destruct I as [<-|[<-|[]]].
  all: change (wrong_ro (uts_i d) (uts_v d) (uts_f d) = false); unfold wrong_ro; now rewrite V.
Qed.
Lemma frac_listed t id d : uts_f d <> 0 -> wrong_number t id d = true -> exists l, In (id, l) (frac_confusions t).
Proof.
  intros F W. destruct (in_dec langid_eq_dec id (map fst (frac_confusions t))) as [I|I].
  - apply in_map_iff in I as ([k l] & E & I). cbn [fst] in E. subst k. now exists l.
  - exfalso. assert (J : In id (whole_only t)).
    { unfold wrong_number in W. destruct (List.find _ (wrong_table t)) as [[k p]|] eqn:G; [|discriminate]. apply find_some in G as [G E]. cbn [fst] in E.
      apply langid_eqb_eq in E. subst k. pose proof (wrong_listed t) as A. rewrite forallb_forall in A. specialize (A _ G). cbn [fst] in A.
      apply existsb_exists in A as (k & K & E). apply langid_eqb_eq in E. subst k. apply in_app_or in K as [K|K]; [contradiction|exact K]. }
    rewrite (whole_only_part t id d J F) in W. discriminate.
Qed.
Lemma C132_any how id t pr w x po d rules c c' : create how id t = Ok pr -> to_operands w x = Ok po -> represents po d -> proper d ->
  In (id, rules) (cldr t) -> uts_f d <> 0 -> select w pr x = Ok c -> cldr_select rules d c' -> c <> c' ->
  exists l, In (id, l) (frac_confusions t) /\ In (c', c) l.
Proof.
  intros C T R P I F S K D. destruct (wrong_exact how id t pr w x po d C T R P) as (rules1 & c1 & I1 & S1 & Z).
  assert (c1 = c) by congruence. subst c1. assert (rules1 = rules) by exact (cldr_unique t id _ _ I1 I). subst rules1.
  destruct (frac_listed t id d F) as (l & L).
  { destruct (wrong_number t id d); [reflexivity|]. destruct D. exact (C33_unique t id rules d c c' I P (proj2 Z eq_refl) K). }
  exists l. split; [exact L|]. destruct (table_fsettled t id l L) as (b & rules2 & B & G & X & Y).
  apply find_body_in in B. apply find_rules_in in G. assert (rules2 = rules) by exact (cldr_unique t id _ _ G I). subst rules2.
  apply C22_lemma in C as [_ U]. specialize (U b B). subst b.
  destruct (Y (uts_i d) (uts_v d) (uts_f d) (proj2 (N.eqb_neq _ _) F) (uts_v_0 d)) as (c2 & Y1 & Y2).
  assert (E : select w pr x = Ok c2).
  { unfold select. rewrite T. exact (y_arms_ok po d (rp_i _ _ R) (rp_v _ _ R) (rp_f _ _ R) (fun k => n_eq_represents po d k R P) _ _ _ Y1). }
  assert (c2 = c) by congruence. subst c2. apply cldr_selectb_iff in K. rewrite (x_select_ok _ _ _ P X) in K.
  destruct (Y2 c' K) as [Q|Q]; [contradiction|exact Q].
Qed.
Lemma C132_lemma how id t pr w s d rules c c' : create how id t = Ok pr -> numeral s d -> small d ->
  In (id, rules) (cldr t) -> uts_f d <> 0 -> select w pr (InStr s) = Ok c -> cldr_select rules d c' -> c <> c' ->
  exists l, In (id, l) (frac_confusions t) /\ In (c', c) l.
Proof.
  intros C N S. destruct (numeral_represents s d N S) as (po & E & R).
  exact (C132_any how id t pr w (InStr s) po d rules c c' C E R (numeral_proper s d N)).
Qed.
Lemma C132_f64_lemma how id t pr w x rules c : create how id t = Ok pr -> In (id, rules) (cldr t) ->
  valid64 x -> is_finite_SF x = true -> below_2_53 (SFabs x) -> select w pr (InF64 x) = Ok c ->
  exists d E dd, shortest_decimal d E (SFabs x) /\ (d = 0 \/ d mod 10 <> 0) /\ decimal_of d E dd /\
    forall c', uts_f dd <> 0 -> cldr_select rules dd c' -> c <> c' -> exists l, In (id, l) (frac_confusions t) /\ In (c', c) l.
Proof.
  intros C I V F L S. destruct (f64_represents x V F L) as (d & E & dd & po & A1 & A2 & A3 & A4 & A5 & A6).
  exists d, E, dd. split; [exact A1|]. split; [exact A2|]. split; [exact A3|]. intros c' Z.
  exact (C132_any how id t pr w (InF64 x) po dd rules c c' C A5 A6 (numeral_proper _ _ A4) I Z S).
Qed.

(** ** Every pair occurs *)
Definition tries : list (bytes * decimal) :=
  (dec_of_N 1 ++ bs ".12", mkDecimal 1 [1; 2]) :: map (fun i => (dec_of_N i ++ bs ".5", mkDecimal i [5])) [0; 1; 2; 3; 4; 5; 6; 11].
Lemma tries_ok s d : In (s, d) tries -> numeral s d /\ small d /\ uts_f d <> 0.
Proof.
  intros [H|H].
  - injection H as <- <-. split; [|split; [split; [vm_compute; reflexivity|vm_compute; discriminate]|vm_compute; discriminate]].
    destruct (DigitFacts.dec_of_N_spec 1) as (D & V & N & _).
    exists [], (dec_of_N 1), (bs "12"). repeat split; auto; [now left|]. repeat constructor; unfold digit_char; easy.
  - apply in_map_iff in H as (i & H & I). injection H as <- <-. split; [apply dec_half_numeral|].
    cbn [In] in I. split; [|vm_compute; discriminate].
    split; [|vm_compute; discriminate]. repeat (destruct I as [<-|I]; [vm_compute; reflexivity|]). destruct I.
Qed.
Definition occurs (b : body) (rules : list (category * condition)) (c' c : category) (p : bytes * decimal) : bool :=
  match operands_from_str (fst p) with
  | Ok po => match eval_body b po with Ok k => if cat_eqb k c then cldr_selectb rules (snd p) c' else false | _ => false end
  | _ => false
  end.
Definition check_occurs (t : pr_type) (e : langid * list (category * category)) : bool :=
  match find_body t (fst e), find_rules t (fst e) with
  | Some b, Some rules => forallb (fun p => if cat_eqb (fst p) (snd p) then false else existsb (occurs b rules (fst p) (snd p)) tries) (snd e)
  | _, _ => false
  end.
Lemma occurs_checked t : forallb (check_occurs t) (frac_confusions t) = true.
Proof. destruct t; vm_compute; reflexivity. Qed.
Lemma C132_seen_lemma how id t pr w rules l c c' : create how id t = Ok pr -> In (id, rules) (cldr t) -> In (id, l) (frac_confusions t) -> In (c', c) l ->
  c <> c' /\ exists s d, numeral s d /\ small d /\ uts_f d <> 0 /\ select w pr (InStr s) = Ok c /\ cldr_select rules d c'.
Proof.
  intros C I J L. pose proof (occurs_checked t) as K. rewrite forallb_forall in K. specialize (K _ J). unfold check_occurs in K. cbn [fst snd] in K.
  destruct (find_body t id) as [b|] eqn:B; [|discriminate]. destruct (find_rules t id) as [rules2|] eqn:G; [|discriminate].
  apply find_body_in in B. apply find_rules_in in G. assert (rules2 = rules) by exact (cldr_unique t id _ _ G I). subst rules2.
  apply C22_lemma in C as [_ U]. specialize (U b B). subst b.
  rewrite forallb_forall in K. specialize (K _ L). cbn [fst snd] in K. destruct (cat_eqb c' c) eqn:E; [discriminate|].
  split; [intros ->; rewrite (proj2 (cat_eqb_eq c' c') eq_refl) in E; discriminate|].
  apply existsb_exists in K as ([s d] & T & K). unfold occurs in K. cbn [fst snd] in K.
  destruct (tries_ok s d T) as (T1 & T2 & T3). exists s, d. do 3 (split; [assumption|]).
  unfold select. cbn [to_operands]. destruct (operands_from_str s) as [po| |]; [|discriminate|discriminate].
  destruct (eval_body _ po) as [k| |]; [|discriminate|discriminate]. destruct (cat_eqb k c) eqn:Q; [|discriminate].
  apply cat_eqb_eq in Q. subst k. split; [reflexivity|]. now apply cldr_selectb_iff.
Qed.
