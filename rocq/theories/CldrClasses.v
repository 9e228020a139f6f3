(** * C126: select tells apart the locales that CLDR tells apart *)
From Coq Require Import Lia.
From Verif Require Import Base F64 Operands Ast LangId GenRs RustExpr PluralRules Tables Cldr Spec GenMeaning ApiProps
  Conformance BehaviourSpec CycleProps ClassProps RepeatSpec RepeatProps IntegerClasses.
Open Scope N_scope.

(** ** Statement *)
(** one category for every number, and for every integer, by UTS #35 *)
Definition same_meaning (r r' : list (category * condition)) : Prop :=
  forall d c, proper d -> (cldr_select r d c <-> cldr_select r' d c).
Definition same_on_integers (r r' : list (category * condition)) : Prop :=
  forall x c, cldr_select r (mkDecimal x []) c <-> cldr_select r' (mkDecimal x []) c.
(** the cardinals of Belarusian, Russian and Ukrainian *)
Definition east_slavic (t : pr_type) (id : langid) : bool :=
  match t with CARDINAL => listed id "be ru uk" | ORDINAL => false end.

(** ** Locales grouped by lines of a table *)
Section Lines.
Context {K E : Type} (same : E -> E -> Prop) (lines : list K) (rep : K -> E).
Hypothesis sym : forall a b, same a b -> same b a.
Hypothesis trans : forall a b c, same a b -> same b c -> same a c.
Hypothesis apart : forall k k', In k lines -> In k' lines -> k = k' \/ ~ same (rep k) (rep k').
Lemma filter_one_in (f : K -> bool) p : List.filter f lines = [p] -> In p lines /\ f p = true.
Proof. intro F. apply filter_In. rewrite F. now left. Qed.
Lemma filter_one_only (f : K -> bool) p q : List.filter f lines = [p] -> In q lines -> f q = true -> q = p.
Proof. intros F I T. assert (J : In q (List.filter f lines)) by (apply filter_In; auto). rewrite F in J. destruct J as [J|[]]. now symmetry. Qed.
Lemma lines_iff (f g : K -> bool) p q a b : List.filter f lines = [p] -> List.filter g lines = [q] ->
  same a (rep p) -> same b (rep q) -> (same a b <-> existsb (fun k => f k && g k) lines = true).
Proof.
  intros F G A B. destruct (filter_one_in f p F) as [P FP]. destruct (filter_one_in g q G) as [Q GQ]. rewrite existsb_exists. split.
  - intro S. destruct (apart p q P Q) as [->|D].
    + exists q. rewrite FP, GQ. auto.
    + exfalso. apply D. apply (trans _ a); [now apply sym|]. now apply (trans _ b).
  - intros (k & I & H). apply andb_prop in H as [FK GK].
    rewrite <- (filter_one_only f p k F I FK) in A. rewrite <- (filter_one_only g q k G I GK) in B.
    apply (trans _ (rep k)); [exact A|now apply sym].
Qed.
End Lines.

(** ** Ranges written out *)
Definition values_of (it : range_list_item) : list range_list_item :=
  match it with
  | RValue k => [RValue k]
  | RRange r => if upper_val r <=? lower_val r + 30
                then List.map (fun k => RValue (lower_val r + N.of_nat k)) (List.seq 0 (N.to_nat (upper_val r + 1 - lower_val r)))
                else [it]
  end.
Lemma values_of_ok a b it : b <> 0 -> existsb (item_in (a, b)) (values_of it) = item_in (a, b) it.
Proof.
  intro B. destruct it as [r|k]; cbn [values_of]; [|cbn [existsb]; now rewrite orb_false_r].
  destruct (upper_val r <=? lower_val r + 30); [|cbn [existsb]; now rewrite orb_false_r].
  apply Bool.eq_true_iff_eq. rewrite existsb_exists. cbn [item_in]. split.
  - intros (y & I & H). apply in_map_iff in I as (k & <- & I). apply in_seq in I. cbn [item_in] in H. apply N.eqb_eq in H. subst a.
    rewrite N.mod_mul by exact B. rewrite N.eqb_refl. cbn [andb]. apply andb_true_intro.
    split; apply N.leb_le; apply N.mul_le_mono_r; lia.
  - intro H. apply andb_prop in H as [H U]. apply andb_prop in H as [M L]. apply N.eqb_eq in M. apply N.leb_le in U, L.
    apply N.mod_divide in M; [|exact B]. destruct M as [z ->].
    apply N.mul_le_mono_pos_r in U; [|lia]. apply N.mul_le_mono_pos_r in L; [|lia].
    exists (RValue z). split; [|cbn [item_in]; apply N.eqb_refl]. apply in_map_iff. exists (N.to_nat (z - lower_val r)). split; [f_equal; lia|].
    apply in_seq. lia.
Qed.
Definition written_out (r : relation) : relation :=
  match rel_op r with
  | OpWithin | OpNotWithin => r
  | _ => mkRel (rel_expr r) (rel_op r) (flat_map values_of (rel_list r))
  end.
Lemma uts_expr_den e d : snd (uts_expr e d) <> 0.
Proof.
  unfold uts_expr. destruct (uts_operand (ex_operand e) d) as [a b] eqn:O.
  assert (b <> 0). { destruct (ex_operand e); cbn in O; injection O as _ <-; try discriminate. unfold uts_den. apply N.pow_nonzero. discriminate. }
  destruct (ex_modulus e); assumption.
Qed.
Lemma written_out_ok r d : uts_relation (written_out r) d = uts_relation r d.
Proof.
  unfold written_out. pose proof (uts_expr_den (rel_expr r) d) as Z.
  assert (A : existsb (item_in (uts_expr (rel_expr r) d)) (flat_map values_of (rel_list r)) = existsb (item_in (uts_expr (rel_expr r) d)) (rel_list r)).
  { destruct (uts_expr (rel_expr r) d) as [a b]. cbn [snd] in Z. induction (rel_list r) as [|it l IH]; [reflexivity|].
    cbn [flat_map existsb]. rewrite existsb_app, IH, values_of_ok by exact Z. reflexivity. }
  unfold uts_relation. destruct (rel_op r) eqn:O; rewrite ?O; cbn [rel_op rel_expr rel_list]; rewrite ?A; reflexivity.
Qed.
Definition rules_out (rs : list (category * condition)) : list (category * condition) :=
  List.map (fun p => (fst p, List.map (List.map written_out) (snd p))) rs.
Lemma condition_out_ok k d : uts_condition (List.map (List.map written_out) k) d = uts_condition k d.
Proof.
  unfold uts_condition. induction k as [|a k IH]; [reflexivity|]. cbn [List.map existsb]. rewrite IH. f_equal.
  unfold uts_and. induction a as [|r a IHa]; [reflexivity|]. cbn [List.map forallb]. now rewrite IHa, written_out_ok.
Qed.
Lemma rules_out_ok rs d c : cldr_select (rules_out rs) d c <-> cldr_select rs d c.
Proof.
  rewrite <- !cldr_selectb_iff. unfold cldr_selectb, rules_out. destruct (cat_eqb c OTHER).
  - induction rs as [|[c' k] rs IH]; [reflexivity|]. cbn [List.map forallb fst snd]. rewrite condition_out_ok, !andb_true_iff, IH. reflexivity.
  - induction rs as [|[c' k] rs IH]; [reflexivity|]. cbn [List.map existsb fst snd]. rewrite condition_out_ok, !orb_true_iff, IH. reflexivity.
Qed.
Definition relation_eq_dec (a b : relation) : {a = b} + {a <> b}.
Proof.
  assert (DN : forall a b : N, {a = b} + {a <> b}) by apply N.eq_dec.
  assert (DR : forall a b : range, {a = b} + {a <> b}) by (decide equality).
  assert (DI : forall a b : range_list_item, {a = b} + {a <> b}) by (decide equality).
  assert (DL : forall a b : list range_list_item, {a = b} + {a <> b}) by (apply list_eq_dec; exact DI).
  assert (DO : forall a b : operator, {a = b} + {a <> b}) by (decide equality).
  assert (DP : forall a b : operand, {a = b} + {a <> b}) by (decide equality).
  assert (DM : forall a b : option N, {a = b} + {a <> b}) by (decide equality).
  assert (DE : forall a b : expression, {a = b} + {a <> b}) by (decide equality).
  decide equality.
Defined.
Definition rules_eq_dec (a b : list (category * condition)) : {a = b} + {a <> b}.
Proof.
  apply list_eq_dec. decide equality; [|decide equality]. apply list_eq_dec. apply list_eq_dec. exact relation_eq_dec.
Defined.

(** ** All numbers *)
Definition differ_at (a b : list (category * condition)) (d : decimal) : bool :=
  existsb (fun c => negb (Bool.eqb (cldr_selectb a d c) (cldr_selectb b d c))) all_categories.
Lemma differ_at_ok a b d : differ_at a b d = true -> ~ (forall c, cldr_select a d c <-> cldr_select b d c).
Proof.
  intros D H. apply existsb_exists in D as (c & _ & D). specialize (H c). rewrite <- !cldr_selectb_iff in H.
  destruct (cldr_selectb a d c), (cldr_selectb b d c); cbn in D; try discriminate; destruct H as [H H']; [now specialize (H eq_refl)|now specialize (H' eq_refl)].
Qed.
Definition tell_apart (t : pr_type) : list decimal :=
  match t with
  | CARDINAL => [mkDecimal 0 []; mkDecimal 2 []; mkDecimal 0 [1]; mkDecimal 21 []; mkDecimal 1 [0]; mkDecimal 7 []; mkDecimal 0 [1;0]; mkDecimal 1 []; mkDecimal 1 [1;0]]
  | ORDINAL => [mkDecimal 3 []; mkDecimal 2 []; mkDecimal 9 []; mkDecimal 1 []; mkDecimal 5 []; mkDecimal 11 []; mkDecimal 4 []; mkDecimal 6 []; mkDecimal 10 []]
  end.
Lemma tell_apart_proper t d : In d (tell_apart t) -> proper d.
Proof.
  assert (K : forallb (fun d => forallb (fun x => x <? 10) (d_frac d)) (tell_apart t) = true) by (destruct t; reflexivity).
  rewrite forallb_forall in K. intro I. specialize (K d I). rewrite forallb_forall in K. apply Forall_forall. intros x X. now apply N.ltb_lt, K.
Qed.
Definition class_rules (t : pr_type) (s : string) : list (category * condition) :=
  match List.find (fun e => listed (fst e) s) (cldr t) with Some e => snd e | None => [] end.
Lemma meaning_classes t : (let l := List.map (fun s => (s, rules_out (class_rules t s))) (classes t) in
  forallb (fun e => match List.filter (fun q => listed (fst e) (fst q)) l with
                    | [(_, r)] => if rules_eq_dec (rules_out (snd e)) r then true else false
                    | _ => false end) (cldr t)) = true.
Proof. destruct t; vm_compute; reflexivity. Qed.
Lemma meaning_apart t : (let l := List.map (fun s => (s, class_rules t s)) (classes t) in
  forallb (fun q => forallb (fun q' => String.eqb (fst q) (fst q') || existsb (differ_at (snd q) (snd q')) (tell_apart t)) l) l) = true.
Proof. destruct t; vm_compute; reflexivity. Qed.
Lemma filter_map_one {A B} (g : A -> B) (f : B -> bool) l y : List.filter f (List.map g l) = [y] ->
  exists x, y = g x /\ List.filter (fun x => f (g x)) l = [x].
Proof.
  assert (Z : forall k, List.filter f (List.map g k) = List.map g (List.filter (fun x => f (g x)) k)).
  { induction k as [|x r IH]; [reflexivity|]. cbn [List.map List.filter]. rewrite IH. destruct (f (g x)); reflexivity. }
  rewrite Z. destruct (List.filter _ l) as [|x [|]]; cbn; try discriminate. intro E. injection E as <-. eauto.
Qed.
Lemma meaning_line t id r : In (id, r) (cldr t) -> exists s, List.filter (fun s => listed id s) (classes t) = [s] /\
  same_meaning r (class_rules t s).
Proof.
  intro I. pose proof (meaning_classes t) as A. cbv zeta in A. rewrite forallb_forall in A. specialize (A _ I). cbn [fst snd] in A.
  destruct (List.filter _ _) as [|[s0 r0] [|]] eqn:F; try discriminate.
  apply filter_map_one in F as (s & E & F). injection E as -> ->. exists s. split; [exact F|].
  destruct (rules_eq_dec (rules_out r) (rules_out (class_rules t s))) as [Q|]; [|discriminate].
  intros d c _. rewrite <- (rules_out_ok r), <- (rules_out_ok (class_rules t s)), Q. reflexivity.
Qed.
Lemma C126_meaning_lemma t id r id' r' : In (id, r) (cldr t) -> In (id', r') (cldr t) ->
  (same_meaning r r' <-> same_class t id id' = true).
Proof.
  intros I I'. destruct (meaning_line t id r I) as (s & F & S). destruct (meaning_line t id' r' I') as (s' & F' & S').
  unfold same_class. apply (lines_iff same_meaning (classes t) (class_rules t)) with (p := s) (q := s'); try assumption.
  - intros a b H d c P. symmetry. now apply H.
  - intros a b e H H' d c P. rewrite (H d c P). now apply H'.
  - intros k k' K K'. pose proof (meaning_apart t) as A. cbv zeta in A. rewrite forallb_forall in A.
    specialize (A (k, class_rules t k) (in_map _ _ _ K)). rewrite forallb_forall in A.
    specialize (A (k', class_rules t k') (in_map _ _ _ K')). cbn [fst snd] in A.
    apply orb_prop in A as [A|A]; [left; now apply String.eqb_eq|right]. apply existsb_exists in A as (d & D & A).
    intro H. apply (differ_at_ok _ _ _ A). intro c. apply H. exact (tell_apart_proper t d D).
Qed.
Lemma C126_select_lemma how how' id id' t pr pr' r r' : create how id t = Ok pr -> create how' id' t = Ok pr' ->
  In (id, r) (cldr t) -> In (id', r') (cldr t) ->
  (same_meaning r r' <-> forall w x, select w pr x = select w pr' x).
Proof.
  intros C C' I I'. rewrite (C126_meaning_lemma t id r id' r' I I'). symmetry. exact (C85_lemma how how' id id' t pr pr' C C').
Qed.

(** ** Integers *)
Definition cldr_lines : list (string * string) :=
  ("be ru uk"%string, ""%string) :: List.filter (fun p => negb (String.eqb (fst p) "be" || String.eqb (fst p) "ru uk")) integer_classes.
Definition bounds : list (N * N) := [(2, 1); (21, 1); (101, 100)].
Definition agree_rules (a b : list (category * condition)) : bool :=
  if rules_eq_dec a b then true else
  existsb (fun p => repeatsb (fst p) (snd p) a && repeatsb (fst p) (snd p) b && negb (snd p =? 0) &&
    check_from (fun x => negb (differ_at a b (mkDecimal x []))) (N.to_nat (fst p + snd p)) 0) bounds.
Lemma not_differ a b d : differ_at a b d = false -> forall c, cldr_select a d c <-> cldr_select b d c.
Proof.
  intros D c. rewrite <- !cldr_selectb_iff. destruct (Bool.eqb (cldr_selectb a d c) (cldr_selectb b d c)) eqn:E.
  - apply Bool.eqb_prop in E. now rewrite E.
  - exfalso. assert (X : differ_at a b d = true); [|congruence]. apply existsb_exists. exists c. rewrite E.
    split; [destruct c; cbn; tauto|reflexivity].
Qed.
Lemma agree_rules_ok a b : agree_rules a b = true -> same_on_integers a b.
Proof.
  intros H x c. unfold agree_rules in H. destruct (rules_eq_dec a b) as [->|_]; [reflexivity|].
  apply existsb_exists in H as ([B P] & _ & H). cbn [fst snd] in H.
  apply andb_prop in H as [H K]. apply andb_prop in H as [H P0]. apply andb_prop in H as [RA RB].
  apply repeatsb_ok in RA, RB. apply Bool.negb_true_iff, N.eqb_neq in P0.
  assert (W : forall y, y < B + P -> cldr_select a (mkDecimal y []) c <-> cldr_select b (mkDecimal y []) c).
  { intros y Y. apply not_differ. apply Bool.negb_true_iff. apply (check_from_ok _ _ _ K y); [lia|]. rewrite N2Nat.id. lia. }
  destruct (N.lt_ge_cases x B) as [L|G]; [apply W; lia|].
  pose proof (N.mod_lt (x - B) P P0) as M. pose proof (N.div_mod (x - B) P P0) as D.
  assert (E : x mod P = (B + (x - B) mod P) mod P).
  { replace x with (B + (x - B) mod P + ((x - B) / P) * P) at 1 by lia. now apply N.mod_add. }
  rewrite (repeats_uts B P a [] x (B + (x - B) mod P) c), (repeats_uts B P b [] x (B + (x - B) mod P) c); try assumption; try lia.
  apply W. lia.
Qed.
Definition line_rules (p : string * string) : list (category * condition) :=
  match List.find (fun e => listed (fst e) (fst p)) (cldr CARDINAL) with
  | Some e => snd e
  | None => match List.find (fun e => listed (fst e) (snd p)) (cldr ORDINAL) with Some e => snd e | None => [] end
  end.
Definition integers_apart : list N := [2; 6; 21; 3; 0; 4; 8; 1; 5; 10; 11; 20].
Lemma integer_lines t : (let l := List.map (fun p => (p, line_rules p)) cldr_lines in
  forallb (fun e => match List.filter (fun q => listed (fst e) (side t (fst q))) l with
                    | [(_, r)] => agree_rules (snd e) r
                    | _ => false end) (cldr t)) = true.
Proof. destruct t; vm_compute; reflexivity. Qed.
Lemma integer_lines_apart : (let l := List.map (fun p => (p, line_rules p)) cldr_lines in
  forallb (fun q => forallb (fun q' => line_eqb (fst q) (fst q') ||
    existsb (fun x => differ_at (snd q) (snd q') (mkDecimal x [])) integers_apart) l) l) = true.
Proof. vm_compute; reflexivity. Qed.
Lemma integer_line t id r : In (id, r) (cldr t) -> exists p, List.filter (fun p => listed id (side t p)) cldr_lines = [p] /\
  same_on_integers r (line_rules p).
Proof.
  intro I. pose proof (integer_lines t) as A. cbv zeta in A. rewrite forallb_forall in A. specialize (A _ I). cbn [fst snd] in A.
  destruct (List.filter _ _) as [|[s0 r0] [|]] eqn:F; try discriminate.
  apply filter_map_one in F as (s & E & F). injection E as -> ->. exists s. split; [exact F|]. exact (agree_rules_ok _ _ A).
Qed.
(** the table of C125 with one line changed *)
Lemma removed_lines : List.filter (fun p => String.eqb (fst p) "be" || String.eqb (fst p) "ru uk") integer_classes =
  [("be", ""); ("ru uk", "")]%string.
Proof. vm_compute. reflexivity. Qed.
Lemma existsb_split {A} (f g : A -> bool) l : existsb g l = existsb g (List.filter (fun x => negb (f x)) l) || existsb g (List.filter f l).
Proof.
  induction l as [|x r IH]; [reflexivity|]. cbn [existsb List.filter]. rewrite IH. destruct (f x); cbn [negb existsb]; destruct (g x); cbn [orb]; try reflexivity.
  now rewrite orb_true_r.
Qed.
Lemma no_empty_name : forallb (fun e => negb (listed (fst e) "")) (cldr ORDINAL) = true.
Proof. vm_compute. reflexivity. Qed.
Lemma east_slavic_side t id r : In (id, r) (cldr t) -> east_slavic t id = listed id (side t ("be ru uk", "")%string).
Proof.
  intro I. destruct t; [reflexivity|]. pose proof no_empty_name as A. rewrite forallb_forall in A. specialize (A _ I). cbn [fst] in A.
  apply Bool.negb_true_iff in A. cbn [side snd]. now rewrite A.
Qed.
Lemma listed_side t id : listed id (side t ("be ru uk", "")%string) = listed id (side t ("be", "")%string) || listed id (side t ("ru uk", "")%string).
Proof.
  destruct t; [|symmetry; apply orb_diag]. unfold listed, side. cbn [fst].
  replace (words "be ru uk") with ["be"; "ru"; "uk"]%string by reflexivity. replace (words "be") with ["be"]%string by reflexivity.
  replace (words "ru uk") with ["ru"; "uk"]%string by reflexivity. cbn [existsb].
  rewrite ?orb_false_r, ?orb_assoc. reflexivity.
Qed.
Lemma one_line_gen t id r t' id' r' (L : list (string * string)) : In (id, r) (cldr t) -> In (id', r') (cldr t') ->
  List.filter (fun p => String.eqb (fst p) "be" || String.eqb (fst p) "ru uk") L = [("be", ""); ("ru uk", "")]%string ->
  existsb (fun p => listed id (side t p) && listed id' (side t' p))
    (("be ru uk"%string, ""%string) :: List.filter (fun p => negb (String.eqb (fst p) "be" || String.eqb (fst p) "ru uk")) L) =
  existsb (fun p => listed id (side t p) && listed id' (side t' p)) L || east_slavic t id && east_slavic t' id'.
Proof.
  intros I I' E. rewrite (existsb_split (fun p => String.eqb (fst p) "be" || String.eqb (fst p) "ru uk") _ L), E.
  cbn [existsb]. rewrite (east_slavic_side t id r I), (east_slavic_side t' id' r' I'). set (R := existsb _ (List.filter _ _)). clearbody R.
  rewrite !listed_side.
  destruct (listed id (side t ("be", "")%string)), (listed id (side t ("ru uk", "")%string)), (listed id' (side t' ("be", "")%string)),
    (listed id' (side t' ("ru uk", "")%string)), R; reflexivity.
Qed.
Lemma one_line t id r t' id' r' : In (id, r) (cldr t) -> In (id', r') (cldr t') ->
  existsb (fun p => listed id (side t p) && listed id' (side t' p)) cldr_lines =
  existsb (fun p => listed id (side t p) && listed id' (side t' p)) integer_classes || east_slavic t id && east_slavic t' id'.
Proof. intros I I'. exact (one_line_gen t id r t' id' r' integer_classes I I' removed_lines). Qed.
Lemma C126_integers_lemma t id r t' id' r' : In (id, r) (cldr t) -> In (id', r') (cldr t') ->
  (same_on_integers r r' <-> alike t id t' id' || east_slavic t id && east_slavic t' id' = true).
Proof.
  intros I I'. unfold alike. rewrite <- (one_line t id r t' id' r' I I'). destruct (integer_line t id r I) as (s & F & S). destruct (integer_line t' id' r' I') as (s' & F' & S').
  apply (lines_iff same_on_integers cldr_lines line_rules) with (p := s) (q := s'); try assumption.
  - intros a b H x c. symmetry. apply H.
  - intros a b e H H' x c. rewrite (H x c). apply H'.
  - intros k k' K K'. pose proof integer_lines_apart as A. cbv zeta in A. rewrite forallb_forall in A.
    specialize (A (k, line_rules k) (in_map _ _ _ K)). rewrite forallb_forall in A.
    specialize (A (k', line_rules k') (in_map _ _ _ K')). cbn [fst snd] in A.
    apply orb_prop in A as [A|A]; [left; now apply line_eqb_eq|right]. apply existsb_exists in A as (x & X & A).
    intro H. apply (differ_at_ok _ _ _ A). intro c. apply H.
Qed.
(** locales that CLDR takes together and [select] does not, for integers *)
Lemma C126_select_integers_lemma how how' id t pr r id' t' pr' r' w w' : create how id t = Ok pr -> create how' id' t' = Ok pr' ->
  In (id, r) (cldr t) -> In (id', r') (cldr t') ->
  ((forall x, x < 2 ^ 64 -> select w pr (InUnsigned x) = select w' pr' (InUnsigned x)) -> same_on_integers r r').
Proof.
  intros C C' I I' H. apply (C126_integers_lemma t id r t' id' r' I I').
  now rewrite (proj1 (C125_lemma how how' id t pr id' t' pr' w w' C C') H).
Qed.
