(** * The conditions of a CLDR locale exclude each other (property C33) *)
From Coq Require Import Lia.
From Verif Require Import Base Ast LangId GenRs Json Spec Cldr GenFacts GenMeaning.
Open Scope N_scope.

(** ** A check that a list of relations has no solution *)

(** a relation on an integer operand *)
Record atom := mkAtom { at_var : operand; at_mod : option N; at_neg : bool; at_list : range_list }.

Definition reduce (m : option N) (x : N) : N := match m with Some m => x mod m | None => x end.
Definition holds (a : atom) (x : N) : bool :=
  xorb (at_neg a) (existsb (item_in (reduce (at_mod a) x, 1)) (at_list a)).
Definition var_value (o : operand) (d : decimal) : N := fst (uts_operand o d).

Definition negated (o : operator) : option bool :=
  match o with
  | OpIn | OpIs | OpEQ => Some false
  | OpNotIn | OpIsNot | OpNotEQ => Some true
  | OpWithin | OpNotWithin => None
  end.
Definition is_zero (o : operand) : atom := mkAtom o None false [RValue 0].

(** consequences of one relation; a relation on [n] says something about [i]
    once the fraction is known to vanish *)
Definition atoms (zero : bool) (r : relation) : list atom :=
  match negated (rel_op r) with
  | None => []
  | Some neg =>
      let a o := mkAtom o (ex_modulus (rel_expr r)) neg (rel_list r) in
      match ex_operand (rel_expr r) with
      | ON => if neg then if zero then [a OI] else [] else [a OI; is_zero OF]
      | o => [a o]
      end
  end.
Definition implies_zero (a : atom) : bool :=
  match at_var a, at_mod a, at_neg a, at_list a with
  | (OV | OW | OF | OT), None, false, [RValue 0] => true
  | _, _, _, _ => false
  end.
Definition all_atoms (conj : list relation) : list atom :=
  let z := existsb implies_zero (flat_map (atoms false) conj) in
  flat_map (atoms z) conj ++ (if z then [is_zero OF; is_zero OT; is_zero OW] else []).

(** the residues a positive atom allows *)
Fixpoint from_to (n : nat) (x : N) : list N := match n with O => [] | S n => x :: from_to n (x + 1) end.
Definition item_values (it : range_list_item) : list N :=
  match it with
  | RValue k => [k]
  | RRange r => from_to (N.to_nat (upper_val r + 1 - lower_val r)) (lower_val r)
  end.
Definition divides (m : option N) (m' : option N) : bool :=
  match m, m' with
  | None, _ => true
  | Some m, Some m' => negb (m =? 0) && negb (m' =? 0) && (m mod m' =? 0)
  | Some _, None => false
  end.
Definition operand_eqb (a b : operand) : bool :=
  match a, b with
  | ON, ON | OI, OI | OV, OV | OW, OW | OF, OF | OT, OT => true
  | _, _ => false
  end.
Definition refutes (p a : atom) (x : N) : bool :=
  operand_eqb (at_var p) (at_var a) && divides (at_mod p) (at_mod a) && negb (holds a x).
Definition pivot_unsat (l : list atom) (p : atom) : bool :=
  negb (at_neg p) &&
  forallb (fun x => existsb (fun a => refutes p a x) l) (flat_map item_values (at_list p)).
Definition unsat (conj : list relation) : bool :=
  let l := all_atoms conj in existsb (pivot_unsat l) l.

Definition exclusive (c1 c2 : condition) : bool :=
  forallb (fun a1 => forallb (fun a2 => unsat (a1 ++ a2)) c2) c1.
Definition category_eqb (a b : category) : bool :=
  match a, b with
  | ZERO, ZERO | ONE, ONE | TWO, TWO | FEW, FEW | MANY, MANY | OTHER, OTHER => true
  | _, _ => false
  end.
Definition rules_exclusive (rs : list (category * condition)) : bool :=
  forallb (fun x => forallb (fun y => category_eqb (fst x) (fst y) || exclusive (snd x) (snd y)) rs) rs.

(** ** Its correctness *)
Lemma holds_mod p a x : divides (at_mod p) (at_mod a) = true -> holds a (reduce (at_mod p) x) = holds a x.
Proof.
  unfold holds, divides, reduce. destruct (at_mod p) as [m|]; [|reflexivity].
  destruct (at_mod a) as [m'|]; [|discriminate].
  intros H. apply andb_prop in H as [H Z]. apply andb_prop in H as [H1 H2].
  apply N.eqb_eq in Z. apply Bool.negb_true_iff, N.eqb_neq in H1, H2.
  apply N.mod_divide in Z; [|exact H2]. destruct Z as [q ->].
  replace ((x mod (q * m')) mod m') with (x mod m'); [reflexivity|].
  rewrite (N.div_mod x (q * m')) at 1 by exact H1.
  replace (q * m' * (x / (q * m')) + x mod (q * m')) with (x mod (q * m') + (q * (x / (q * m'))) * m') by lia.
  now rewrite N.mod_add by exact H2.
Qed.

Lemma from_to_in n : forall x y, x <= y < x + N.of_nat n -> In y (from_to n x).
Proof.
  induction n as [|n IH]; intros x y H; [lia|]. cbn [from_to].
  destruct (N.eq_dec x y); [now left|right]. apply IH. lia.
Qed.
Lemma item_values_in it x : item_in (x, 1) it = true -> In x (item_values it).
Proof.
  destruct it as [r|k]; cbn [item_in item_values].
  - intros H. apply andb_prop in H as [H B]. apply andb_prop in H as [_ A].
    apply N.leb_le in A, B. rewrite N.mul_1_r in A, B. apply from_to_in. lia.
  - intros H. apply N.eqb_eq in H. left. lia.
Qed.

Definition atom_true (d : decimal) (a : atom) : Prop := holds a (var_value (at_var a) d) = true.

Lemma operand_eqb_eq a b : operand_eqb a b = true -> a = b.
Proof. destruct a, b; easy. Qed.

Lemma pivot_sound l p d : In p l -> Forall (atom_true d) l -> pivot_unsat l p = false.
Proof.
  intros I F. apply Bool.not_true_iff_false. intros H. apply andb_prop in H as [P H].
  apply Bool.negb_true_iff in P. rewrite forallb_forall in H.
  rewrite Forall_forall in F. pose proof (F p I) as T. unfold atom_true, holds in T. rewrite P, Bool.xorb_false_l in T.
  apply existsb_exists in T as (it & J & T). apply item_values_in in T.
  specialize (H (reduce (at_mod p) (var_value (at_var p) d))).
  rewrite in_flat_map in H. specialize (H (ex_intro _ it (conj J T))).
  apply existsb_exists in H as (a & Ja & R). unfold refutes in R.
  apply andb_prop in R as [R R3]. apply andb_prop in R as [R1 R2]. apply operand_eqb_eq in R1.
  rewrite (holds_mod p a) in R3 by exact R2. rewrite R1 in R3. specialize (F a Ja). unfold atom_true in F.
  rewrite F in R3. discriminate.
Qed.

(** membership of a number with a fraction *)
Lemma num_mod' d m : proper d -> uts_num d mod (m * uts_den d) = (uts_i d mod m) * uts_den d + uts_f d.
Proof.
  intros P. assert (Dp := den_pos d). assert (M := num_mod d P).
  assert (F : uts_f d < uts_den d).
  { rewrite <- M. apply N.mod_lt. lia. }
  unfold uts_num. fold (uts_i d). destruct (N.eq_dec m 0) as [->|Hm].
  - assert (Z : forall a, a mod 0 = a) by (intros [|a]; reflexivity). now rewrite N.mul_0_l, !Z.
  - symmetry. apply N.mod_unique with (uts_i d / m).
    + assert (uts_i d mod m < m) by (apply N.mod_lt; exact Hm). nia.
    + rewrite (N.div_mod (uts_i d) m) at 1 by exact Hm. nia.
Qed.
Lemma item_in_frac j f den it : 0 < den -> f < den ->
  item_in (j * den + f, den) it = (f =? 0) && item_in (j, 1) it.
Proof.
  intros D F. destruct it as [r|k]; cbn [item_in].
  - rewrite N.add_comm, N.mod_add, (N.mod_small f) by lia. rewrite N.mod_1_r.
    destruct (N.eqb_spec f 0) as [->|]; [|reflexivity]. cbn [andb N.eqb]. rewrite N.add_0_l, !N.mul_1_r.
    destruct (N.leb_spec (lower_val r) j), (N.leb_spec j (upper_val r)),
      (N.leb_spec (lower_val r * den) (j * den)), (N.leb_spec (j * den) (upper_val r * den)); try reflexivity; exfalso; nia.
  - rewrite N.mul_1_r.
    destruct (N.eqb_spec f 0) as [Z|Z], (N.eqb_spec j k), (N.eqb_spec (j * den + f) (k * den)); try reflexivity; exfalso; nia.
Qed.
Lemma n_relation m l d : proper d ->
  existsb (item_in (uts_expr (mkExpr ON m) d)) l =
  (uts_f d =? 0) && existsb (item_in (reduce m (uts_i d), 1)) l.
Proof.
  intros P. assert (Dp := den_pos d).
  assert (F : uts_f d < uts_den d) by (rewrite <- (num_mod d P); apply N.mod_lt; lia).
  replace (uts_expr (mkExpr ON m) d) with (reduce m (uts_i d) * uts_den d + uts_f d, uts_den d).
  - induction l as [|it l IH]; cbn [existsb]; [now rewrite Bool.andb_false_r|].
    rewrite IH, item_in_frac by lia. now destruct (uts_f d =? 0).
  - unfold uts_expr. cbn [ex_operand ex_modulus uts_operand]. destruct m as [m|]; cbn [reduce].
    + now rewrite num_mod'.
    + reflexivity.
Qed.

Lemma atoms_sound zero r d : proper d -> uts_relation r d = true -> (zero = true -> uts_f d = 0) ->
  Forall (atom_true d) (atoms zero r).
Proof.
  intros P R Z. destruct r as [[o m] op l]. unfold atoms, uts_relation in *. cbn [rel_op rel_expr rel_list ex_operand ex_modulus] in *.
  assert (G : forall (neg : bool) o, o <> ON ->
     (if neg then negb (existsb (item_in (uts_expr (mkExpr o m) d)) l) else existsb (item_in (uts_expr (mkExpr o m) d)) l) = true ->
     atom_true d (mkAtom o m neg l)).
  { intros neg o' No H. unfold atom_true, holds. cbn [at_var at_mod at_neg at_list].
    replace (uts_expr (mkExpr o' m) d) with (reduce m (var_value o' d), 1) in H.
    - destruct neg; [rewrite Bool.xorb_true_l|rewrite Bool.xorb_false_l]; exact H.
    - unfold uts_expr, var_value. cbn [ex_operand ex_modulus]. destruct o'; try easy; destruct m; cbn [uts_operand fst reduce]; rewrite ?N.mul_1_r; reflexivity. }
  assert (NP : existsb (item_in (uts_expr (mkExpr ON m) d)) l = true ->
     Forall (atom_true d) [mkAtom OI m false l; is_zero OF]).
  { intros H. rewrite n_relation in H by exact P. apply andb_prop in H as [H1 H2].
    constructor; [|constructor; [|constructor]]; unfold atom_true, holds; cbn [at_var at_mod at_neg at_list is_zero var_value uts_operand fst].
    - now rewrite H2.
    - cbn. now rewrite H1. }
  assert (NN : negb (existsb (item_in (uts_expr (mkExpr ON m) d)) l) = true -> zero = true ->
     Forall (atom_true d) [mkAtom OI m true l]).
  { intros H Zz. rewrite n_relation, (Z Zz) in H by exact P. cbn [andb N.eqb] in H.
    constructor; [|constructor]. unfold atom_true, holds; cbn [at_var at_mod at_neg at_list var_value uts_operand fst].
    rewrite Bool.xorb_true_l. exact H. }
  destruct op; cbn [negated]; try constructor; destruct o;
    try (constructor; [apply G; [discriminate|exact R]|constructor]); auto;
    destruct zero; auto.
Qed.

Lemma all_atoms_sound conj d : proper d -> uts_and conj d = true -> Forall (atom_true d) (all_atoms conj).
Proof.
  intros P A. unfold uts_and in A. rewrite forallb_forall in A.
  assert (S : forall z, (z = true -> uts_f d = 0) -> Forall (atom_true d) (flat_map (atoms z) conj)).
  { intros z Z. rewrite Forall_forall. intros a I. apply in_flat_map in I as (r & Ir & I).
    pose proof (atoms_sound z r d P (A r Ir) Z) as F. rewrite Forall_forall in F. auto. }
  unfold all_atoms. set (z := existsb _ _).
  assert (Z : z = true -> uts_f d = 0).
  { intros H. apply existsb_exists in H as (a & I & H).
    assert (T := S false ltac:(discriminate)). rewrite Forall_forall in T. specialize (T a I).
    destruct a as [o [m|] [|] l]; unfold implies_zero in H; cbn [at_var at_mod at_neg at_list] in H;
      try (destruct o; discriminate H).
    destruct l as [|[r|[|k]] [|it l]]; try (destruct o; discriminate H).
    assert (V0 : var_value o d = 0).
    { unfold atom_true, holds in T. cbn in T. destruct (N.eqb_spec (var_value o d) 0); [assumption|discriminate T]. }
    destruct o; try discriminate H; unfold var_value in V0; cbn [uts_operand fst] in V0.
    - now apply uts_v_0.
    - now apply uts_w_0.
    - exact V0.
    - now apply uts_t_0. }
  apply Forall_app. split; [now apply S|]. destruct z; [|constructor]. specialize (Z eq_refl).
  repeat constructor; unfold atom_true, holds, var_value, is_zero; cbn [at_var at_mod at_neg at_list uts_operand fst reduce].
  - rewrite Z. reflexivity.
  - apply uts_t_0 in Z. rewrite Z. reflexivity.
  - apply uts_w_0 in Z. rewrite Z. reflexivity.
Qed.

Lemma unsat_sound conj d : proper d -> unsat conj = true -> uts_and conj d = false.
Proof.
  intros P U. apply Bool.not_true_iff_false. intros A. pose proof (all_atoms_sound conj d P A) as F.
  unfold unsat in U. apply existsb_exists in U as (p & I & U). rewrite (pivot_sound _ p d I F) in U. discriminate.
Qed.
Lemma exclusive_sound c1 c2 d : proper d -> exclusive c1 c2 = true ->
  uts_condition c1 d = true -> uts_condition c2 d = true -> False.
Proof.
  intros P X A B. apply existsb_exists in A as (a1 & I1 & A). apply existsb_exists in B as (a2 & I2 & B).
  unfold exclusive in X. rewrite forallb_forall in X. specialize (X a1 I1). rewrite forallb_forall in X.
  specialize (X a2 I2). apply (unsat_sound _ d P) in X. unfold uts_and in *. rewrite forallb_app, A, B in X. discriminate.
Qed.
Lemma category_eqb_eq a b : category_eqb a b = true -> a = b.
Proof. destruct a, b; easy. Qed.

Lemma cldr_exclusive t : forallb (fun l => rules_exclusive (snd l)) (cldr t) = true.
Proof. destruct t; vm_compute; reflexivity. Qed.

Lemma C33_lemma t id rules c1 c2 cond1 cond2 d : In (id, rules) (cldr t) -> proper d ->
  In (c1, cond1) rules -> In (c2, cond2) rules ->
  uts_condition cond1 d = true -> uts_condition cond2 d = true -> c1 = c2.
Proof.
  intros I P I1 I2 A B. pose proof (cldr_exclusive t) as X. rewrite forallb_forall in X. specialize (X _ I).
  cbn [snd] in X. unfold rules_exclusive in X. rewrite forallb_forall in X. specialize (X _ I1).
  rewrite forallb_forall in X. specialize (X _ I2). cbn [fst snd] in X. apply Bool.orb_prop in X as [X|X].
  - now apply category_eqb_eq.
  - exfalso. eapply exclusive_sound; eauto.
Qed.

Lemma C33_unique t id rules d c1 c2 : In (id, rules) (cldr t) -> proper d ->
  cldr_select rules d c1 -> cldr_select rules d c2 -> c1 = c2.
Proof.
  intros I P [(N1 & k1 & J1 & A1)|(E1 & A1)] [(N2 & k2 & J2 & A2)|(E2 & A2)].
  - eapply C33_lemma; eauto.
  - rewrite (A2 _ _ J1 N1) in A1. discriminate.
  - rewrite (A1 _ _ J2 N2) in A2. discriminate.
  - congruence.
Qed.
