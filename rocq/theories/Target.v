(** * C96: compiling the generated code for a 32-bit or 64-bit target *)
From Coq Require Import Lia.
From Verif Require Import Base F64 Operands Ast Tokens LangId GenPr GenRs RustExpr PluralRules Tables Spec CodeSpec DigitFacts GenFacts GenMeaning
  CodeProps FileSpec MakeBody MakeProps CodeMore TargetSpec.
Open Scope N_scope.

(** ** What the compiler checks on a target, beside [compiles] (RustExpr.v, where
    every integer type is [u64]): numbers that meet a [usize] field *)
Definition on_usize (x : num) : bool := match x with NField (OV | OW) | NMod (OV | OW) _ => true | _ => false end.
Definition num_numbers (x : num) : list N := match x with NMod (OV | OW) m => [m] | _ => [] end.
Fixpoint usize_literals (e : bexpr) : list N :=
  match e with
  | BCmpNL x _ l | BCmpLN l _ x => num_numbers x ++ (if on_usize x then match l with LInt n => [n] | LFloat _ => [] end else [])
  | BContains lo hi x => num_numbers x ++ (if on_usize x then [lo; hi] else [])
  | BNot b => usize_literals b
  | BAnd a b | BOr a b => usize_literals a ++ usize_literals b
  end.
Definition compiles_on (target : ptr_width) (e : bexpr) : bool :=
  compiles e && forallb (fun k => k <? @usize_limit target) (usize_literals e).
Definition body_compiles_on (target : ptr_width) (b : body) : bool := forallb (fun '(e, _) => compiles_on target e) (b_arms b).
(** [pub static CLDR_VERSION: usize = k;] *)
Definition version_fits (target : ptr_width) (k : N) : bool := k <? @usize_limit target.

Section Literals.
Context (P : N -> bool).
Definition lits (e : bexpr) : bool := forallb P (usize_literals e).
Lemma lits_fold f l e : (forall a b, lits (f a b) = lits a && lits b) -> lits (fold_left f l e) = lits e && forallb lits l.
Proof.
  intro H. revert e. induction l as [|x l IH]; intro e; cbn [fold_left forallb]; [now rewrite Bool.andb_true_r|].
  now rewrite IH, H, Bool.andb_assoc.
Qed.
Lemma lits_joinl f l : (forall a b, lits (f a b) = lits a && lits b) -> l <> [] -> lits (joinl f l) = forallb lits l.
Proof. intros H N. destruct l; [easy|]. now apply lits_fold. Qed.
Lemma lits_and a b : lits (BAnd a b) = lits a && lits b. Proof. apply forallb_app. Qed.
Lemma lits_or a b : lits (BOr a b) = lits a && lits b. Proof. apply forallb_app. Qed.

Definition item_lits (ex : expression) (it : range_list_item) : bool :=
  if counts_digits (ex_operand ex) then forallb P (modulus_numbers ex ++ item_numbers it) else true.
Lemma lits_item neg ex it : forallb lits (item_conj neg ex it) = item_lits ex it.
Proof.
  destruct ex as [o m]. unfold item_lits, lits. destruct it as [[a b]|v]; cbn [item_conj]; unfold range_conj, value_conj, range_num, value_num, value_lit, f_is_0.
  - destruct neg, o, m as [m|]; cbn; rewrite ?Bool.andb_true_r; reflexivity.
  - destruct o, m as [m|]; cbn; rewrite ?Bool.andb_true_r; reflexivity.
Qed.
Lemma lits_rel r es : rel_conjs r = Some es -> forallb lits es = forallb P (usize_numbers r).
Proof.
  unfold rel_conjs. intro C. destruct (is_within (rel_op r)) eqn:W.
  - rewrite first_range_nth in C. unfold usize_numbers.
    destruct (first_range (rel_list r)) as [[a b]|]; [|discriminate]. injection C as <-. unfold within_conj, within_num, value_lit, lits.
    destruct r as [[o m] op l]. cbn [rel_op rel_expr ex_operand ex_modulus lower_val upper_val] in *.
    destruct op; try discriminate W; destruct o, m as [m|]; cbn; rewrite ?Bool.andb_true_r; reflexivity.
  - assert (E : forallb P (usize_numbers r) = forallb (item_lits (rel_expr r)) (items_of (rel_list r))).
    { rewrite (forallb_same _ _ _ (items_in (rel_list r))). unfold usize_numbers, item_lits.
      destruct (counts_digits (ex_operand (rel_expr r))).
      - transitivity (forallb P (flat_map (fun it => modulus_numbers (rel_expr r) ++ item_numbers it) (rel_list r)));
          [now destruct (rel_op r)|]. rewrite flat_map_concat_map, forallb_concat, forallb_map. reflexivity.
      - induction (rel_list r); auto. }
    rewrite E. rewrite (forallb_eq _ (fun it => forallb lits (item_conj (negated (rel_op r)) (rel_expr r) it)) _ (fun it _ => eq_sym (lits_item _ _ it))).
    rewrite !item_conjs_items in C. destruct (negated (rel_op r)).
    + assert (K : es = List.concat (List.map (item_conj true (rel_expr r)) (items_of (rel_list r)))).
      { destruct (List.map _ _); [discriminate|]. now injection C as <-. }
      now rewrite K, forallb_concat, forallb_map.
    + rewrite <- (forallb_map (forallb lits) (item_conj false (rel_expr r))).
      assert (NI : forall c, In c (List.map (item_conj false (rel_expr r)) (items_of (rel_list r))) -> c <> []).
      { intros c H. apply in_map_iff in H as (x & <- & _). apply item_conj_ne. }
      destruct (List.map (item_conj false (rel_expr r)) (items_of (rel_list r))) as [|c [|c2 cs]]; [discriminate| |].
      * injection C as <-. cbn [forallb]. now rewrite Bool.andb_true_r.
      * assert (K : es = [joinl BOr (List.map (joinl BAnd) (c :: c2 :: cs))]) by now injection C as <-.
        rewrite K. cbn [forallb]. rewrite Bool.andb_true_r.
        rewrite (lits_joinl BOr (List.map (joinl BAnd) (c :: c2 :: cs)) lits_or) by easy.
        rewrite forallb_map. rewrite (forallb_eq _ (forallb lits) (c :: c2 :: cs)); [reflexivity|].
        intros x I. apply lits_joinl; [exact lits_and|now apply NI].
Qed.
Lemma lits_conj a e : and_expr a = Some e -> lits e = forallb (fun r => forallb P (usize_numbers r)) a.
Proof.
  unfold and_expr. destruct (opt_concat (List.map rel_conjs a)) as [[|e0 es]|] eqn:C; try discriminate.
  intro H. assert (K : e = joinl BAnd (e0 :: es)) by now injection H as <-. rewrite K, (lits_joinl BAnd _ lits_and) by easy.
  clear H K. revert C. generalize (e0 :: es). clear e e0 es.
  induction a as [|r a IH]; cbn [List.map opt_concat]; intros l H.
  - now injection H as <-.
  - destruct (rel_conjs r) as [cr|] eqn:C; [|discriminate].
    destruct (opt_concat (List.map rel_conjs a)) as [ca|]; [|discriminate]. injection H as <-.
    now rewrite forallb_app, (IH ca eq_refl), (lits_rel r cr C).
Qed.
Lemma lits_cond c e : cond_expr c = Some e -> lits e = forallb (forallb (fun r => forallb P (usize_numbers r))) c.
Proof.
  unfold cond_expr. destruct (map_opt and_expr c) as [[|e0 es]|] eqn:C; try discriminate.
  intro H. assert (K : e = joinl BOr (e0 :: es)) by now injection H as <-. rewrite K, (lits_joinl BOr _ lits_or) by easy.
  clear H K. revert C. generalize (e0 :: es). clear e e0 es.
  induction c as [|a c IH]; cbn [map_opt]; intros l H.
  - now injection H as <-.
  - destruct (and_expr a) as [ea|] eqn:E; [|discriminate].
    destruct (map_opt and_expr c) as [ec|]; [|discriminate]. injection H as <-. cbn [forallb].
    now rewrite (IH ec eq_refl), (lits_conj a ea E).
Qed.
End Literals.

Lemma compiles_on_fits target c e : cond_expr c = Some e -> compiles_on target e = code_fits_on target c.
Proof. intro E. unfold compiles_on, code_fits_on. rewrite (cond_compiles c e E). f_equal. exact (lits_cond (fun k => k <? @usize_limit target) c e E). Qed.
Lemma C96_condition target c ts e : gen_pr c = Ok ts -> read_bexpr ts = Some e -> compiles_on target e = code_fits_on target c.
Proof.
  intros G R. destruct (read_no_gaps _ _ _ G R) as [L N]. destruct (cond_expr_some c (nonempty_of c N L)) as [e' E].
  destruct (cond_expr_ok c e' E) as (ts' & G' & R'). rewrite G in G'. injection G' as <-. rewrite R in R'. injection R' as <-.
  now apply compiles_on_fits.
Qed.
Lemma arms_on target rs arms : Forall2 arm_of rs arms ->
  forallb (fun '(e, _) => compiles_on target e) arms = forallb (fun cc => code_fits_on target (snd cc)) rs.
Proof.
  induction 1 as [|[c co] [e c'] rs arms (_ & ts & G & R) F IH]; [reflexivity|]. cbn [forallb fst snd] in *.
  now rewrite IH, (C96_condition target co ts e G R).
Qed.
Lemma C96_table {ptr : ptr_width} target srt jsons out rs t tbl id b :
  sorts srt -> MakeRules.generate_rs srt jsons = Ok out -> inputs_are jsons rs -> output_table t out = Some tbl -> In (id, b) tbl ->
  exists r d key id0 cs, In r rs /\ data_of t r = Some d /\ input_locale d key id0 cs /\ id = drop_variants id0 /\
    body_compiles_on target b = forallb (fun cc => code_fits_on target (snd cc)) (List.filter not_other cs).
Proof.
  intros S G I O J. destruct (entry_lemma srt jsons out rs t tbl id b S G I O J) as (r & d & key & id0 & cs & R & D & L & E & F & _).
  exists r, d, key, id0, cs. split; [exact R|]. split; [exact D|]. split; [exact L|]. split; [exact E|].
  unfold body_compiles_on. now apply arms_on.
Qed.
Definition shipped_on (target : ptr_width) : bool :=
  version_fits target CLDR_VERSION && forallb (fun t => forallb (fun '(_, b) => body_compiles_on target b) (prs t)) [CARDINAL; ORDINAL].
Lemma shipped_on_true target : shipped_on target = true.
Proof. destruct target; vm_compute; reflexivity. Qed.
Lemma C96_shipped_lemma target : version_fits target CLDR_VERSION = true /\
  forall t id b, In (id, b) (prs t) -> body_compiles_on target b = true.
Proof.
  pose proof (shipped_on_true target) as H. unfold shipped_on in H. apply andb_prop in H as [H1 H2]. split; [exact H1|].
  intros t id b I. rewrite forallb_forall in H2. assert (T : In t [CARDINAL; ORDINAL]) by (destruct t; cbn; auto).
  specialize (H2 t T). cbv beta in H2. rewrite forallb_forall in H2. exact (H2 _ I).
Qed.
Lemma C96_version_lemma {ptr : ptr_width} srt jsons rs out : MakeRules.generate_rs srt jsons = Ok out -> inputs_are jsons rs ->
  exists z k, Forall (fun r => version_number (version_of r) z) rs /\ output_version out = Some k /\
    version_fits W64 k = true /\ (version_fits W32 k = true <-> (0 <= z < 2 ^ 32)%Z).
Proof.
  intros G I. destruct (C53_emits srt jsons rs out G I) as (v & z & V & N & O & _). exists z, (Z.to_N (z mod 2 ^ 64)).
  split. { rewrite Forall_forall in *. intros r R. now rewrite (V r R). }
  split; [exact O|]. unfold version_fits, usize_limit.
  assert (B : (- 2 ^ 63 <= z < 2 ^ 63)%Z).
  { destruct N as (sg & ds & _ & _ & _ & [(_ & Z & L)|(_ & Z & L)]); destruct isize_end_limit as [E LP]; rewrite E in L;
      change (2 ^ 63)%Z with 9223372036854775808%Z; lia. }
  pose proof (Z.mod_pos_bound z (2 ^ 64) eq_refl) as M. change (2 ^ 64)%Z with 18446744073709551616%Z in *. change (2 ^ 63)%Z with 9223372036854775808%Z in *.
  change (2 ^ 64) with 18446744073709551616. change (2 ^ 32) with 4294967296. change (2 ^ 32)%Z with 4294967296%Z.
  split; [apply N.ltb_lt; lia|]. rewrite N.ltb_lt. split; intro H.
  - destruct (Z.lt_ge_cases z 0) as [L|L]; [exfalso|rewrite Z.mod_small in H by lia; lia].
    assert (X : (z mod 18446744073709551616 = z + 18446744073709551616)%Z).
    { symmetry. apply Z.mod_unique with (-1)%Z; lia. } lia.
  - rewrite Z.mod_small by lia. lia.
Qed.
