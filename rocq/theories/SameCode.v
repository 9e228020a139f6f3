(** * Which conditions generate the same code (C110) *)
From Coq Require Import Lia.
From Verif Require Import Base Ast Tokens GenPr GenRs RustExpr Spec CodeSpec GenFacts GenMeaning CodeProps CodeMore SameSpec.
Open Scope N_scope.

(** ** Checks and parts as tokens *)
Definition nm (o : operand) (m : option N) : num := match m with None => NField o | Some m => NMod o m end.
Definition lt (o : operand) (m : option N) (v : N) : lit := match o, m with ON, None => LFloat v | _, _ => LInt v end.
Definition check_tokens (k : check) : list token :=
  match k with
  | Equals neg o m v => num_tokens (nm o m) ++ cmp_token (if neg then CNe else CEq) :: lit_tokens (lt o m v)
  | Between neg o m a b => (if neg then [P "!"] else []) ++ contains_tokens a b (nm o m)
  | Lower w o m v => lit_tokens (lt o m v) ++ cmp_token (if w then CLe else CGt) :: num_tokens (nm o m)
  | Upper w o m v => num_tokens (nm o m) ++ cmp_token (if w then CLe else CGt) :: lit_tokens (lt o m v)
  end.
Definition check_expr (k : check) : bexpr :=
  match k with
  | Equals neg o m v => BCmpNL (nm o m) (if neg then CNe else CEq) (lt o m v)
  | Between neg o m a b => let c := BContains a b (nm o m) in if neg then BNot c else c
  | Lower w o m v => BCmpLN (lt o m v) (if w then CLe else CGt) (nm o m)
  | Upper w o m v => BCmpNL (nm o m) (if w then CLe else CGt) (lt o m v)
  end.
Lemma check_atom k : atom (check_tokens k) (check_expr k).
Proof.
  destruct k as [neg o m v|neg o m a b|w o m v|w o m v]; cbn [check_tokens check_expr]; [apply atom_NL| |apply atom_LN|apply atom_NL].
  destruct neg; [apply atom_not_contains|apply atom_contains].
Qed.
Lemma nm_inj o m o' m' : nm o m = nm o' m' -> o = o' /\ m = m'.
Proof. destruct m, m'; cbn; intro H; inversion H; auto. Qed.
Lemma lt_inj o m v v' : lt o m v = lt o m v' -> v = v'.
Proof. destruct o, m; cbn; intro H; now inversion H. Qed.
Lemma check_expr_inj k k' : check_expr k = check_expr k' -> k = k'.
Proof.
  destruct k as [neg o m v|neg o m a b|w o m v|w o m v], k' as [neg' o' m' v'|neg' o' m' a' b'|w' o' m' v'|w' o' m' v'];
    cbn [check_expr]; cbv zeta; try (destruct neg; discriminate); try (destruct neg'; discriminate); try discriminate.
  - intro H. injection H as A B C. apply nm_inj in A as [<- <-]. apply lt_inj in C as <-. destruct neg, neg'; try discriminate B; reflexivity.
  - intro H. injection H as A B C. destruct neg, w'; discriminate B.
  - destruct neg, neg'; intro H; try discriminate H; injection H as A B C; apply nm_inj in C as [<- <-]; now subst.
  - intro H. injection H as C B A. apply nm_inj in A as [<- <-]. apply lt_inj in C as <-. destruct w, w'; try discriminate B; reflexivity.
  - intro H. injection H as A B C. destruct neg', w; discriminate B.
  - intro H. injection H as A B C. apply nm_inj in A as [<- <-]. apply lt_inj in C as <-. destruct w, w'; try discriminate B; reflexivity.
Qed.
Lemma check_tokens_inj k k' : check_tokens k = check_tokens k' -> k = k'.
Proof.
  intro H. apply check_expr_inj. destruct (check_atom k) as (_ & _ & R). destruct (check_atom k') as (_ & _ & R').
  specialize (R _ (le_n _)). rewrite H in R. specialize (R' _ (le_n _)). rewrite R in R'. now injection R'.
Qed.

Definition part_tokens (p : part) : list token :=
  match p with
  | One k => check_tokens k
  | Any l => [Par (sep_by [P "||"] (List.map (fun ks => sep_by [P "&&"] (List.map check_tokens ks)) l))]
  end.
Lemma check_not_par k ts : check_tokens k <> [Par ts].
Proof.
  destruct k as [neg o m v|neg o m a b|w o m v|w o m v]; cbn [check_tokens].
  - destruct m; cbn; discriminate.
  - destruct neg; cbn; discriminate.
  - unfold lt. destruct o, m; cbn; discriminate.
  - destruct m; cbn; discriminate.
Qed.
Lemma check_free s k : s = bs "&&" \/ s = bs "||" -> free s (check_tokens k).
Proof. destruct (check_atom k) as (A & B & _). intros [->| ->]; auto. Qed.
Lemma map_inj {A B} (f : A -> B) : (forall x y, f x = f y -> x = y) -> forall l l', List.map f l = List.map f l' -> l = l'.
Proof.
  intros I. induction l as [|x l IH]; intros [|y l']; cbn; intro H; try discriminate H; [reflexivity|].
  injection H as H1 H2. f_equal; auto.
Qed.
Lemma sep_inj s l l' : l <> [] -> l' <> [] -> Forall (free (bs s)) l -> Forall (free (bs s)) l' ->
  sep_by [P s] l = sep_by [P s] l' -> l = l'.
Proof.
  intros N N' F F' H. rewrite <- (split_sep_by (bs s) l N F), <- (split_sep_by (bs s) l' N' F'). unfold P in H. now rewrite H.
Qed.
Definition wf_part (p : part) : Prop := match p with One _ => True | Any l => l <> [] /\ Forall (fun ks => ks <> []) l end.
Lemma checks_free s ks : s = bs "&&" \/ s = bs "||" -> Forall (free s) (List.map check_tokens ks).
Proof. intro S. apply Forall_map. apply Forall_forall. intros k _. now apply check_free. Qed.
Lemma ands_free ks : free (bs "||") (sep_by [P "&&"] (List.map check_tokens ks)).
Proof. apply free_sep_by; [repeat constructor|]. apply checks_free. now right. Qed.
Lemma map_ne {A B} (f : A -> B) l : l <> [] -> List.map f l <> [].
Proof. now destruct l. Qed.
Lemma part_tokens_inj p p' : wf_part p -> wf_part p' -> part_tokens p = part_tokens p' -> p = p'.
Proof.
  intros W W' H. destruct p as [k|l], p' as [k'|l']; cbn [part_tokens] in H.
  - f_equal. now apply check_tokens_inj.
  - now apply check_not_par in H.
  - symmetry in H. now apply check_not_par in H.
  - f_equal. destruct W as [W1 W2], W' as [W1' W2'].
    assert (X : sep_by [P "||"] (List.map (fun ks => sep_by [P "&&"] (List.map check_tokens ks)) l) =
                sep_by [P "||"] (List.map (fun ks => sep_by [P "&&"] (List.map check_tokens ks)) l')) by (unfold Par in H; now injection H).
    apply sep_inj in X; try (now apply map_ne); try (apply Forall_map; apply Forall_forall; intros ks _; apply ands_free).
    clear - W2 W2' X. revert l' W2' X. induction W2 as [|a l N F IH]; intros [|a' l'] W X; cbn in X; try discriminate X; [reflexivity|].
    injection X as X1 X2. inversion W; subst. f_equal; [|auto].
    apply sep_inj in X1; try (now apply map_ne); try (apply checks_free; now left).
    exact (map_inj check_tokens check_tokens_inj _ _ X1).
Qed.
Lemma part_free p : free (bs "&&") (part_tokens p).
Proof. destruct p; [apply check_free; now left|]. repeat constructor. Qed.

(** ** The tokens of a relation *)
Lemma checks_pieces neg ex it : List.map check_tokens (checks neg ex it) =
  match it with RValue v => value_pieces neg ex v | RRange r => range_pieces neg ex r end.
Proof.
  destruct ex as [o m], it as [r|v]; cbn [checks]; unfold range_pieces, value_pieces; cbn [List.map check_tokens ex_operand ex_modulus].
  - destruct neg, o, m; reflexivity.
  - destruct neg, o, m; reflexivity.
Qed.
Lemma order_pieces neg r : List.map (fun it => List.map check_tokens (checks neg (rel_expr r) it)) (in_order (rel_list r)) = item_pieces neg r.
Proof.
  unfold in_order, item_pieces. rewrite map_app. f_equal.
  - unfold values_of. induction (rel_list r) as [|[x|v] l IH]; [reflexivity|exact IH|]. cbn [List.filter is_a_value List.map flat_map app].
    rewrite IH. f_equal. now rewrite checks_pieces.
  - unfold ranges_of. induction (rel_list r) as [|[x|v] l IH]; [reflexivity| |exact IH]. cbn [List.filter is_a_value negb List.map flat_map app].
    rewrite IH. f_equal. now rewrite checks_pieces.
Qed.
Lemma order_ne l : l <> [] -> in_order l <> [].
Proof.
  intros N H. apply app_eq_nil in H as [A B]. destruct l as [|[r|v] l]; [easy|discriminate B|discriminate A].
Qed.
Lemma checks_ne neg ex it : checks neg ex it <> [].
Proof. now destruct it. Qed.
Lemma first_filter l : match List.filter (fun it => negb (is_a_value it)) l with RRange r :: _ => Some r | _ => None end = nth_error (ranges_of l) 0.
Proof. induction l as [|[r|v] l IH]; [reflexivity|reflexivity|exact IH]. Qed.
Lemma relation_tokens r : rel_list r <> [] -> lacks_range r = false ->
  create_relation r = Ok (sep_by [P "&&"] (List.map part_tokens (relation_parts r))) /\ relation_parts r <> [] /\
  Forall wf_part (relation_parts r).
Proof.
  intros N L. rewrite create_relation_tokens. unfold rel_tokens, relation_parts.
  assert (W : forall w, is_within (rel_op r) = true -> w = (match rel_op r with OpWithin => true | _ => false end) ->
    match nth_error (ranges_of (rel_list r)) 0 with
    | Some r0 => Ok (sep_by [P "&&"] (within_pieces r r0))
    | None => Panic "index out of bounds"
    end = Ok (sep_by [P "&&"] (List.map part_tokens (bounds w (rel_expr r) (rel_list r)))) /\
    bounds w (rel_expr r) (rel_list r) <> [] /\ Forall wf_part (bounds w (rel_expr r) (rel_list r))).
  { intros w Wi Ew. unfold bounds. rewrite <- first_filter.
    assert (X : exists r0, match List.filter (fun it => negb (is_a_value it)) (rel_list r) with RRange r :: _ => Some r | _ => None end = Some r0).
    { unfold lacks_range in L. destruct (first_range (rel_list r)) as [r0|] eqn:F; [|destruct (rel_op r); discriminate].
      exists r0. clear - F. induction (rel_list r) as [|[x|v] l IH]; cbn in *; [discriminate|now injection F as ->|auto]. }
    destruct X as [r0 X]. destruct (List.filter _ (rel_list r)) as [|[x|v] l]; try discriminate X. injection X as ->.
    split; [|split; [easy|repeat constructor]]. f_equal. 
    unfold within_pieces, within_num, value_lit. destruct r as [[o m] op li]. cbn [rel_expr rel_op ex_operand ex_modulus] in *. subst w.
    destruct op; try discriminate Wi; destruct o, m; reflexivity. }
  assert (NE : relation_parts r <> [] /\ Forall wf_part (relation_parts r) -> True) by auto. clear NE.
  pose proof (order_ne _ N) as ON.
  assert (Pos : is_within (rel_op r) = false ->
     let l := List.map (sep_by [P "&&"]) (item_pieces false r) in
     let ps := match List.map (checks false (rel_expr r)) (in_order (rel_list r)) with [c] => List.map One c | l => [Any l] end in
     (if Nat.ltb 1 (List.length l) then [Par (sep_by [P "||"] l)] else sep_by [P "||"] l) = sep_by [P "&&"] (List.map part_tokens ps) /\
     ps <> [] /\ Forall wf_part ps).
  { intros _ l ps. unfold l. rewrite <- order_pieces. clear l.
    assert (EQ : forall x, List.map part_tokens (List.map One x) = List.map check_tokens x) by (intro; now rewrite map_map).
    unfold ps. clear ps. destruct (in_order (rel_list r)) as [|it [|it2 its]]; [easy| |].
    - cbn [List.map List.length Nat.ltb Nat.leb sep_by]. rewrite EQ. split; [reflexivity|]. split; [apply map_ne, checks_ne|].
      apply Forall_map. apply Forall_forall. intros; exact Logic.I.
    - split; [|split; [easy|constructor; [|constructor]]].
      + cbn [List.map List.length Nat.ltb Nat.leb sep_by part_tokens]. do 2 f_equal. rewrite !map_map. reflexivity.
      + split; [easy|]. constructor; [apply checks_ne|]. constructor; [apply checks_ne|]. apply Forall_map, Forall_forall. intros; apply checks_ne. }
  assert (Neg : is_within (rel_op r) = false ->
     sep_by [P "&&"] (List.map (sep_by [P "&&"]) (item_pieces true r)) =
     sep_by [P "&&"] (List.map part_tokens (List.map One (flat_map (checks true (rel_expr r)) (in_order (rel_list r))))) /\
     List.map One (flat_map (checks true (rel_expr r)) (in_order (rel_list r))) <> [] /\
     Forall wf_part (List.map One (flat_map (checks true (rel_expr r)) (in_order (rel_list r))))).
  { intros _. split; [|split].
    - rewrite sep_by_concat by apply item_pieces_ne. rewrite <- order_pieces, map_map. cbn [part_tokens].
      rewrite flat_map_concat_map, concat_map, map_map. reflexivity.
    - apply map_ne. destruct (in_order (rel_list r)) as [|it l]; [easy|]. cbn. pose proof (checks_ne true (rel_expr r) it). now destruct (checks true (rel_expr r) it).
    - apply Forall_map, Forall_forall. intros; exact Logic.I. }
  destruct (rel_op r) eqn:O; cbn [is_within negated] in *;
    try (destruct (Pos eq_refl) as (A & B & C); cbv zeta in A; rewrite A; auto; fail);
    try (destruct (Neg eq_refl) as (A & B & C); rewrite A; auto; fail).
  - exact (W true eq_refl eq_refl).
  - exact (W false eq_refl eq_refl).
Qed.

(** ** Conditions *)
Definition relation_ok (r : relation) : Prop := rel_list r <> [] /\ lacks_range r = false.
Definition inner (ps : list part) : list token := sep_by [P "&&"] (List.map part_tokens ps).
Lemma and_tokens a : Forall relation_ok a ->
  map_res create_relation a = Ok (List.map (fun r => inner (relation_parts r)) a).
Proof.
  induction 1 as [|r a [N L] F IH]; [reflexivity|]. cbn [map_res List.map].
  destruct (relation_tokens r N L) as (-> & _). cbn [rbind]. now rewrite IH.
Qed.
Lemma and_condition_tokens a : a <> [] -> Forall relation_ok a ->
  create_and_condition a = Ok [Par (inner (flat_map relation_parts a))] /\ flat_map relation_parts a <> [] /\
  Forall wf_part (flat_map relation_parts a).
Proof.
  intros Na F. assert (G : Forall (fun ps => ps <> []) (List.map (fun r => List.map part_tokens (relation_parts r)) a)).
  { apply Forall_map. revert F. apply Forall_impl. intros r [N L]. apply map_ne. now apply relation_tokens. }
  split; [|split].
  - unfold create_and_condition. rewrite and_tokens by exact F. cbn [rbind]. do 3 f_equal. unfold inner.
    rewrite <- (map_map (fun r => List.map part_tokens (relation_parts r)) (sep_by [P "&&"])). rewrite sep_by_concat by exact G.
    rewrite flat_map_concat_map, concat_map, map_map. reflexivity.
  - destruct a as [|r a]; [easy|]. inversion F as [|? ? [N L] _]; subst. cbn. intro H. apply app_eq_nil in H as [H _].
    now apply (relation_tokens r N L).
  - rewrite flat_map_concat_map. apply Forall_concat, Forall_map. revert F. apply Forall_impl. intros r [N L]. now apply relation_tokens.
Qed.
Definition condition_ok (c : condition) : Prop := c <> [] /\ Forall (fun a => a <> [] /\ Forall relation_ok a) c.
Lemma condition_tokens c : Forall (fun a => a <> [] /\ Forall relation_ok a) c ->
  gen_pr c = Ok (sep_by [P "||"] (List.map (fun ps => [Par (inner ps)]) (parts c))).
Proof.
  intro F. unfold gen_pr, create_condition, parts. rewrite map_map.
  assert (M : map_res create_and_condition c = Ok (List.map (fun a => [Par (inner (flat_map relation_parts a))]) c)); [|now rewrite M].
  induction F as [|a c [N A] F IH]; [reflexivity|]. cbn [map_res List.map]. destruct (and_condition_tokens a N A) as (-> & _). cbn [rbind]. now rewrite IH.
Qed.
Lemma inner_inj ps ps' : ps <> [] -> ps' <> [] -> Forall wf_part ps -> Forall wf_part ps' -> inner ps = inner ps' -> ps = ps'.
Proof.
  intros N N' W W' H. unfold inner in H.
  apply sep_inj in H; try (now apply map_ne); try (apply Forall_map, Forall_forall; intros; apply part_free).
  clear N N'. revert ps' W' H. induction W as [|p ps Wp W IH]; intros [|p' ps'] W' H; cbn in H; try discriminate H; [reflexivity|].
  injection H as H1 H2. inversion W'; subst. f_equal; [now apply part_tokens_inj|auto].
Qed.
Lemma same_code_iff c c' : condition_ok c -> condition_ok c' -> (gen_pr c = gen_pr c' <-> parts c = parts c').
Proof.
  intros [N F] [N' F']. rewrite (condition_tokens c F), (condition_tokens c' F'). split; [|now intros ->].
  intro H. injection H as H.
  assert (FR : forall l, Forall (free (bs "||")) (List.map (fun ps => [Par (inner ps)]) l)).
  { intro l. apply Forall_map, Forall_forall. intros. repeat constructor. }
  apply sep_inj in H; auto; try (apply map_ne; unfold parts; now apply map_ne).
  clear N N' FR. unfold parts in *. revert c' F' H.
  induction F as [|a c [Na Fa] F IH]; intros [|a' c'] F' H; cbn [List.map] in *; try discriminate H; [reflexivity|].
  injection H as H1 H2. inversion F' as [|? ? [Na' Fa'] F'']; subst. f_equal; [|now apply IH].
  destruct (and_condition_tokens a Na Fa) as (_ & A & B). destruct (and_condition_tokens a' Na' Fa') as (_ & A' & B').
  now apply inner_inj.
Qed.
Lemma ok_of c : no_gaps c -> lacks_ranges c = false -> condition_ok c.
Proof.
  intros [N F] L. split; [exact N|]. rewrite Forall_forall in *. intros a I. destruct (F a I) as [Na Fa]. split; [exact Na|].
  rewrite Forall_forall in *. intros r J. split; [exact (Fa r J)|].
  destruct (lacks_range r) eqn:X; [|reflexivity]. exfalso.
  assert (lacks_ranges c = true); [|congruence]. apply existsb_exists. exists a. split; [exact I|]. apply existsb_exists. exists r. auto.
Qed.
Lemma C110_lemma c c' : no_gaps c -> lacks_ranges c = false -> no_gaps c' -> lacks_ranges c' = false ->
  (gen_pr c = gen_pr c' <-> parts c = parts c').
Proof. intros A B A' B'. apply same_code_iff; now apply ok_of. Qed.
