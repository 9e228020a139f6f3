(** * The Rust expression denoted by the generated tokens *)
From Coq Require Import Lia.
From Verif Require Import Base F64 Operands Ast Tokens GenPr RustExpr Spec DigitFacts.
Open Scope N_scope.

(** ** The reader with its local functions named *)
Definition read_primary (k : nat) (ts : list token) : option bexpr :=
  match read_contains ts with
  | Some e => Some e
  | None => match ts with [TGroup DParen inner] => read_expr k inner | _ => None end
  end.
Definition read_unary (k : nat) (ts : list token) : option bexpr :=
  match ts with
  | TPunct b :: r => if bytes_eqb b (bs "!") then option_map BNot (read_primary k r) else None
  | _ => match read_primary k ts with Some e => Some e | None => read_cmp ts end
  end.
Definition read_and (k : nat) (ts : list token) : option bexpr :=
  match map_opt (read_unary k) (split_toks (bs "&&") ts) with
  | Some l => join_left BAnd l
  | None => None
  end.
Lemma read_expr_S k ts :
  read_expr (S k) ts =
  match map_opt (read_and k) (split_toks (bs "||") ts) with
  | Some l => join_left BOr l
  | None => None
  end.
Proof. reflexivity. Qed.

(** ** Splitting what [sep_by] joined *)
Definition free (s : bytes) (ts : list token) : Prop := Forall (fun t => is_punct s t = false) ts.
Lemma free_app s a b : free s a -> free s b -> free s (a ++ b).
Proof. apply Forall_app_2 || (intros; apply Forall_app; now split). Qed.
Lemma split_free s a : free s a -> split_toks s a = [a].
Proof.
  induction 1 as [|t r H _ IH]; [reflexivity|]. cbn [split_toks]. now rewrite H, IH.
Qed.
Lemma split_app s a b : free s a -> split_toks s (a ++ TPunct s :: b) = a :: split_toks s b.
Proof.
  induction 1 as [|t r H _ IH]; cbn [split_toks app].
  - assert (E : is_punct s (TPunct s) = true) by (apply bytes_eqb_eq; reflexivity). now rewrite E.
  - now rewrite H, IH.
Qed.
Lemma split_sep_by s l : l <> [] -> Forall (free s) l -> split_toks s (sep_by [TPunct s] l) = l.
Proof.
  intros N F. induction F as [|x r Hx F IH]; [easy|]. destruct r as [|y r].
  - apply split_free, Hx.
  - change (sep_by [TPunct s] (x :: y :: r)) with (x ++ TPunct s :: sep_by [TPunct s] (y :: r)).
    rewrite split_app by assumption. f_equal. apply IH. easy.
Qed.
Lemma free_sep_by s sep l : free s sep -> Forall (free s) l -> free s (sep_by sep l).
Proof.
  intros S F. induction F as [|x r Hx F IH]; [constructor|]. destruct r as [|y r]; [exact Hx|].
  change (sep_by sep (x :: y :: r)) with (x ++ sep ++ sep_by sep (y :: r)).
  apply free_app; [exact Hx|apply free_app; [exact S|exact IH]].
Qed.

(** ** Nesting depth *)
Lemma token_depth_group d ts : token_depth (TGroup d ts) = S (tokens_depth ts).
Proof. reflexivity. Qed.
Lemma depth_app a b : tokens_depth (a ++ b) = Nat.max (tokens_depth a) (tokens_depth b).
Proof.
  unfold tokens_depth. induction a as [|t a IH]; [reflexivity|]. cbn [app fold_right]. rewrite IH. lia.
Qed.
Lemma depth_sep_by sep l x : In x l -> (tokens_depth x <= tokens_depth (sep_by sep l))%nat.
Proof.
  induction l as [|y r IH]; [easy|]. destruct r as [|z r].
  - intros [->|[]]. apply le_n.
  - change (sep_by sep (y :: z :: r)) with (y ++ sep ++ sep_by sep (z :: r)). rewrite !depth_app.
    intros [->|H]; [lia|]. specialize (IH H). lia.
Qed.

(** ** Atoms: token lists the reader takes as one operand of [&&] *)
Definition atom (ts : list token) (e : bexpr) : Prop :=
  free (bs "&&") ts /\ free (bs "||") ts /\
  forall k, (tokens_depth ts <= k)%nat -> read_unary k ts = Some e.
(** token lists read as a whole expression *)
Definition reads (ts : list token) (e : bexpr) : Prop :=
  forall k, (tokens_depth ts < k)%nat -> read_expr k ts = Some e.
Lemma reads_bexpr ts e : reads ts e -> read_bexpr ts = Some e.
Proof. intro H. apply H. lia. Qed.

(** join of a list that must not be empty; the default never matters *)
Definition joinl (f : bexpr -> bexpr -> bexpr) (l : list bexpr) : bexpr :=
  match l with [] => BContains 1 0 (NField OI) | x :: r => fold_left f r x end.
Lemma join_left_joinl f l : l <> [] -> join_left f l = Some (joinl f l).
Proof. now destruct l. Qed.

Lemma map_opt_Forall2 {A B} (f : A -> option B) l l' :
  Forall2 (fun x y => f x = Some y) l l' -> map_opt f l = Some l'.
Proof. induction 1 as [|x y l l' H _ IH]; [reflexivity|]. cbn. now rewrite H, IH. Qed.

(** a list of atoms joined by [&&] *)
Lemma read_and_atoms k pieces es :
  pieces <> [] -> Forall2 atom pieces es ->
  (forall p, In p pieces -> (tokens_depth p <= k)%nat) ->
  read_and k (sep_by [P "&&"] pieces) = Some (joinl BAnd es).
Proof.
  intros N F D. unfold read_and. rewrite split_sep_by.
  - rewrite (map_opt_Forall2 _ _ es).
    + apply join_left_joinl. destruct F; easy.
    + clear N. induction F as [|p e ps es (_ & _ & H) F IH]; constructor.
      * apply H, D. now left.
      * apply IH. intros q Hq. apply D. now right.
  - assumption.
  - clear N D. induction F as [|p e ps es (H & _ & _) F IH]; constructor; assumption.
Qed.
Lemma atoms_free_or pieces es : Forall2 atom pieces es -> free (bs "||") (sep_by [P "&&"] pieces).
Proof.
  intro F. apply free_sep_by; [repeat constructor|].
  induction F as [|p e ps es (_ & H & _) F IH]; constructor; assumption.
Qed.

(** [or] of [and]s of atoms *)
Lemma reads_or pss ess :
  pss <> [] -> Forall (fun ps => ps <> []) pss -> Forall2 (Forall2 atom) pss ess ->
  reads (sep_by [P "||"] (List.map (sep_by [P "&&"]) pss)) (joinl BOr (List.map (joinl BAnd) ess)).
Proof.
  intros N NN F k D. destruct k as [|k]; [lia|]. rewrite read_expr_S. rewrite split_sep_by.
  - rewrite (map_opt_Forall2 _ _ (List.map (joinl BAnd) ess)).
    + apply join_left_joinl. destruct F; easy.
    + assert (D' : forall ps, In ps pss -> (tokens_depth (sep_by [P "&&"] ps) <= k)%nat).
      { intros ps Hp. apply (in_map (sep_by [P "&&"])) in Hp.
        apply (depth_sep_by [P "||"]) in Hp. lia. }
      clear N D. induction F as [|ps es pss ess Ha F IH]; cbn [List.map]; constructor.
      * apply read_and_atoms; [now inversion NN|assumption|].
        intros p Hp. apply (depth_sep_by [P "&&"]) in Hp. specialize (D' ps (or_introl eq_refl)). lia.
      * apply IH; [now inversion NN|]. intros q Hq. apply D'. now right.
  - destruct pss; easy.
  - clear N NN D. induction F as [|ps es pss ess Ha F IH]; cbn [List.map]; constructor; [|assumption].
    eapply atoms_free_or, Ha.
Qed.
Lemma reads_and ps es : ps <> [] -> Forall2 atom ps es -> reads (sep_by [P "&&"] ps) (joinl BAnd es).
Proof.
  intros N F. assert (H := reads_or [ps] [es]). cbn [List.map sep_by joinl fold_left] in H.
  apply H; [easy|repeat constructor; assumption|repeat constructor; assumption].
Qed.

(** a parenthesised expression is an atom, unless it could be a range call *)
Lemma atom_par ts e : reads ts e -> atom [Par ts] e.
Proof.
  intro R. split; [repeat constructor|]. split; [repeat constructor|].
  intros k D. change (tokens_depth [Par ts]) with (Nat.max (token_depth (Par ts)) 0) in D.
  unfold Par in D. rewrite token_depth_group in D.
  unfold read_unary, Par, read_primary.
  assert (C : read_contains [TGroup DParen ts] = None).
  { unfold read_contains. destruct ts as [|[] [|[] [|[] [|]]]]; reflexivity. }
  rewrite C, R; [reflexivity|lia].
Qed.

(** ** Literals *)
Lemma read_nat_dec n : read_nat (dec_of_N n) = Some n.
Proof.
  destruct (dec_of_N_spec n) as (D & V & NE & _). unfold read_nat.
  destruct (dec_of_N n) as [|c r] eqn:E; [easy|]. rewrite <- E in *.
  assert (F : forallb is_digit (dec_of_N n) = true).
  { apply forallb_forall. intros x Hx. unfold digits in D. rewrite Forall_forall in D. specialize (D x Hx).
    unfold digit_char in D. unfold is_digit. apply andb_true_intro. rewrite !N.leb_le. lia. }
  now rewrite F, digits_value_dval, V.
Qed.
Lemma read_lit_int n : read_lit [lit_u64 n] = Some (LInt n).
Proof. unfold read_lit, lit_u64. now rewrite read_nat_dec. Qed.
Lemma read_lit_float n : read_lit (dot_zero (lit_u64 n)) = Some (LFloat n).
Proof. unfold read_lit, dot_zero, lit_u64, P. cbn [bytes_eqb]. rewrite read_nat_dec. reflexivity. Qed.
Lemma read_num_field o : read_num (po_field (operand_ident o)) = Some (NField o).
Proof. now destruct o. Qed.
Lemma read_num_mod o m : read_num (po_field_mod (operand_ident o) (lit_u64 m)) = Some (NMod o m).
Proof.
  unfold po_field_mod, lit_u64. destruct o; cbn -[dec_of_N read_nat]; now rewrite read_nat_dec.
Qed.

(** [num] as tokens *)
Definition num_tokens (x : num) : list token :=
  match x with
  | NField o => po_field (operand_ident o)
  | NMod o m => po_field_mod (operand_ident o) (lit_u64 m)
  end.
Lemma read_num_tokens x : read_num (num_tokens x) = Some x.
Proof. destruct x; [apply read_num_field|apply read_num_mod]. Qed.
Definition lit_tokens (l : lit) : list token :=
  match l with LInt n => [lit_u64 n] | LFloat n => dot_zero (lit_u64 n) end.
Lemma read_lit_tokens l : read_lit (lit_tokens l) = Some l.
Proof. destruct l; [apply read_lit_int|apply read_lit_float]. Qed.
Lemma read_num_lit_none l : read_num (lit_tokens l) = None.
Proof. destruct l; reflexivity. Qed.

Definition cmp_token (op : cmpop) : token :=
  match op with CEq => P "==" | CNe => P "!=" | CLe => P "<=" | CGt => P ">" end.
Lemma split_cmp_at op a b acc :
  Forall (fun t => match t with TPunct p => read_cmpop p = None | _ => True end) a ->
  split_cmp acc (a ++ cmp_token op :: b) = Some (rev acc ++ a, op, b).
Proof.
  intro F. revert acc. induction F as [|t r H F IH]; intro acc; cbn [app split_cmp].
  - rewrite app_nil_r. destruct op; reflexivity.
  - assert (E : split_cmp (t :: acc) (r ++ cmp_token op :: b) = Some (rev acc ++ t :: r, op, b)).
    { rewrite IH. cbn [rev]. now rewrite <- app_assoc. }
    destruct t; try exact E. rewrite H. exact E.
Qed.
Lemma num_tokens_no_cmp x :
  Forall (fun t => match t with TPunct p => read_cmpop p = None | _ => True end) (num_tokens x).
Proof. destruct x as [o|o m]; repeat constructor; destruct o; exact Logic.I. Qed.
Lemma lit_tokens_no_cmp l :
  Forall (fun t => match t with TPunct p => read_cmpop p = None | _ => True end) (lit_tokens l).
Proof. destruct l; repeat constructor. Qed.
Lemma num_free s x : is_punct s (P ".") = false -> is_punct s (P "%") = false -> free s (num_tokens x).
Proof. intros. destruct x as [o|o m]; repeat constructor; auto; destruct o; reflexivity. Qed.
Lemma lit_free s l : is_punct s (P ".") = false -> free s (lit_tokens l).
Proof. intros. destruct l; repeat constructor; auto. Qed.

Lemma read_cmp_NL x op l : read_cmp (num_tokens x ++ cmp_token op :: lit_tokens l) = Some (BCmpNL x op l).
Proof.
  unfold read_cmp. rewrite split_cmp_at by apply num_tokens_no_cmp. cbn [rev app].
  now rewrite read_num_tokens, read_lit_tokens.
Qed.
Lemma read_lit_num_none x : read_lit (num_tokens x) = None.
Proof. destruct x as [o|o m]; [destruct o|]; reflexivity. Qed.
Lemma read_cmp_LN x op l : read_cmp (lit_tokens l ++ cmp_token op :: num_tokens x) = Some (BCmpLN l op x).
Proof.
  unfold read_cmp. rewrite split_cmp_at by apply lit_tokens_no_cmp. cbn [rev app].
  now rewrite read_num_lit_none, read_lit_tokens, read_num_tokens.
Qed.
Lemma atom_NL x op l : atom (num_tokens x ++ cmp_token op :: lit_tokens l) (BCmpNL x op l).
Proof.
  split; [|split].
  - apply free_app; [now apply num_free|]. constructor; [now destruct op|now apply lit_free].
  - apply free_app; [now apply num_free|]. constructor; [now destruct op|now apply lit_free].
  - intros k _. rewrite <- read_cmp_NL.
    destruct x as [o|o m]; unfold num_tokens, po_field, po_field_mod, I; cbn [app];
      unfold read_unary, read_primary, read_contains; reflexivity.
Qed.
Lemma atom_LN x op l : atom (lit_tokens l ++ cmp_token op :: num_tokens x) (BCmpLN l op x).
Proof.
  split; [|split].
  - apply free_app; [now apply lit_free|]. constructor; [now destruct op|now apply num_free].
  - apply free_app; [now apply lit_free|]. constructor; [now destruct op|now apply num_free].
  - intros k _. rewrite <- read_cmp_LN.
    destruct l as [n|n]; unfold lit_tokens, dot_zero, lit_u64, P; cbn [app];
      unfold read_unary, read_primary, read_contains; reflexivity.
Qed.

(** [(a..=b).contains(&(x))], possibly negated *)
Definition contains_tokens (a b : N) (x : num) : list token :=
  [Par [lit_u64 a; P "..="; lit_u64 b]; P "."; I "contains"; Par [P "&"; Par (num_tokens x)]].
Lemma read_contains_tokens a b x : read_contains (contains_tokens a b x) = Some (BContains a b x).
Proof.
  unfold contains_tokens, read_contains, Par, lit_u64, P, I.
  cbn -[read_nat read_num num_tokens dec_of_N]. now rewrite !read_nat_dec, read_num_tokens.
Qed.
Lemma atom_contains a b x : atom (contains_tokens a b x) (BContains a b x).
Proof.
  split; [repeat constructor|]. split; [repeat constructor|].
  intros k _. pose proof (read_contains_tokens a b x) as R.
  unfold contains_tokens, Par, I, P in *. unfold read_unary, read_primary. now rewrite R.
Qed.
Lemma atom_not_contains a b x : atom (P "!" :: contains_tokens a b x) (BNot (BContains a b x)).
Proof.
  split; [repeat constructor|]. split; [repeat constructor|].
  intros k _. pose proof (read_contains_tokens a b x) as R.
  unfold read_unary, P at 1. change (bytes_eqb (bs "!") (bs "!")) with true. cbv iota.
  unfold read_primary. now rewrite R.
Qed.

(** ** The conjuncts generated for one item of a relation *)
Definition value_num (ex : expression) : num :=
  match ex_operand ex, ex_modulus ex with
  | ON, Some m => NMod OI m
  | o, None => NField o
  | o, Some m => NMod o m
  end.
Definition value_lit (ex : expression) (k : N) : lit :=
  match ex_operand ex, ex_modulus ex with ON, None => LFloat k | _, _ => LInt k end.
Definition range_num (ex : expression) : num :=
  match ex_operand ex, ex_modulus ex with
  | ON, _ => NField OI
  | o, None => NField o
  | o, Some m => NMod o m
  end.
Definition f_is_0 : bexpr := BCmpNL (NField OF) CEq (LInt 0).
Definition value_conj (neg : bool) (ex : expression) (k : N) : list bexpr :=
  [BCmpNL (value_num ex) (if neg then CNe else CEq) (value_lit ex k)].
Definition range_conj (neg : bool) (ex : expression) (r : range) : list bexpr :=
  let c := BContains (lower_val r) (upper_val r) (range_num ex) in
  (if neg then BNot c else c) ::
  match ex_operand ex, ex_modulus ex with ON, None => [f_is_0] | _, _ => [] end.
(** the values first, then the ranges *)
Definition values_of (l : range_list) : list N :=
  flat_map (fun x => match x with RValue v => [v] | RRange _ => [] end) l.
Definition ranges_of (l : range_list) : list range :=
  flat_map (fun x => match x with RRange r => [r] | RValue _ => [] end) l.
Definition item_conjs (neg : bool) (r : relation) : list (list bexpr) :=
  List.map (value_conj neg (rel_expr r)) (values_of (rel_list r)) ++
  List.map (range_conj neg (rel_expr r)) (ranges_of (rel_list r)).

Definition negated (op : operator) : bool :=
  match op with OpNotIn | OpIsNot | OpNotEQ => true | _ => false end.
Definition is_within (op : operator) : bool :=
  match op with OpWithin | OpNotWithin => true | _ => false end.

Definition within_num (ex : expression) : num :=
  match ex_operand ex, ex_modulus ex with
  | o, None => NField o
  | _, Some m => NMod OI m
  end.
Definition within_conj (r : relation) (r0 : range) : list bexpr :=
  let op := match rel_op r with OpWithin => CLe | _ => CGt end in
  let x := within_num (rel_expr r) in
  [BCmpLN (value_lit (rel_expr r) (lower_val r0)) op x;
   BCmpNL x op (value_lit (rel_expr r) (upper_val r0))].

(** the conjuncts a relation contributes to its [and] list *)
Definition rel_conjs (r : relation) : option (list bexpr) :=
  if is_within (rel_op r) then
    option_map (within_conj r) (nth_error (ranges_of (rel_list r)) 0)
  else if negated (rel_op r) then
    match item_conjs true r with [] => None | l => Some (List.concat l) end
  else
    match item_conjs false r with
    | [] => None
    | [c] => Some c
    | l => Some [joinl BOr (List.map (joinl BAnd) l)]
    end.

(** pieces of tokens that are atoms *)
Definition rel_pieces (r : relation) (ts : list token) (es : list bexpr) : Prop :=
  exists ps, ts = sep_by [P "&&"] ps /\ ps <> [] /\ Forall2 atom ps es.

Lemma convert_rangl_eq l :
  convert_rangl l = (List.map lit_u64 (values_of l),
                     List.map (fun r => (lit_u64 (lower_val r), lit_u64 (upper_val r))) (ranges_of l)).
Proof.
  unfold convert_rangl, values_of, ranges_of. f_equal.
  - induction l as [|[r|v] l IH]; cbn; [reflexivity|exact IH|now rewrite IH].
  - induction l as [|[r|v] l IH]; cbn; [reflexivity|now rewrite IH|exact IH].
Qed.

(** ** Tokens of the items *)
Definition value_pieces (neg : bool) (ex : expression) (k : N) : list (list token) :=
  [num_tokens (value_num ex) ++ cmp_token (if neg then CNe else CEq) :: lit_tokens (value_lit ex k)].
Definition range_pieces (neg : bool) (ex : expression) (r : range) : list (list token) :=
  let c := contains_tokens (lower_val r) (upper_val r) (range_num ex) in
  (if neg then P "!" :: c else c) ::
  match ex_operand ex, ex_modulus ex with
  | ON, None => [num_tokens (NField OF) ++ cmp_token CEq :: lit_tokens (LInt 0)]
  | _, _ => []
  end.
Definition item_pieces (neg : bool) (r : relation) : list (list (list token)) :=
  List.map (value_pieces neg (rel_expr r)) (values_of (rel_list r)) ++
  List.map (range_pieces neg (rel_expr r)) (ranges_of (rel_list r)).
Definition within_pieces (r : relation) (r0 : range) : list (list token) :=
  let op := match rel_op r with OpWithin => CLe | _ => CGt end in
  let x := within_num (rel_expr r) in
  [lit_tokens (value_lit (rel_expr r) (lower_val r0)) ++ cmp_token op :: num_tokens x;
   num_tokens x ++ cmp_token op :: lit_tokens (value_lit (rel_expr r) (upper_val r0))].

Lemma value_atoms neg ex k : Forall2 atom (value_pieces neg ex k) (value_conj neg ex k).
Proof. constructor; [apply atom_NL|constructor]. Qed.
Lemma range_atoms neg ex r : Forall2 atom (range_pieces neg ex r) (range_conj neg ex r).
Proof.
  unfold range_pieces, range_conj. constructor.
  - destruct neg; [apply atom_not_contains|apply atom_contains].
  - destruct (ex_operand ex), (ex_modulus ex); repeat constructor; apply atom_NL.
Qed.
Lemma within_atoms r r0 : Forall2 atom (within_pieces r r0) (within_conj r r0).
Proof. constructor; [apply atom_LN|]. constructor; [apply atom_NL|constructor]. Qed.
Lemma item_atoms neg r : Forall2 (Forall2 atom) (item_pieces neg r) (item_conjs neg r).
Proof.
  unfold item_pieces, item_conjs. apply Forall2_app.
  - induction (values_of (rel_list r)); constructor; [apply value_atoms|assumption].
  - induction (ranges_of (rel_list r)); constructor; [apply range_atoms|assumption].
Qed.
Lemma item_pieces_ne neg r : Forall (fun ps => ps <> []) (item_pieces neg r).
Proof.
  unfold item_pieces. apply Forall_app. split.
  - induction (values_of (rel_list r)); constructor; [easy|assumption].
  - induction (ranges_of (rel_list r)); constructor; [easy|assumption].
Qed.

Lemma sep_by_cons sep x l : l <> [] -> sep_by sep (x :: l) = x ++ sep ++ sep_by sep l.
Proof. now destruct l. Qed.
Lemma sep_by_app sep a b : a <> [] -> b <> [] -> sep_by sep (a ++ b) = sep_by sep a ++ sep ++ sep_by sep b.
Proof.
  intros Na Nb. induction a as [|x a IH]; [easy|]. destruct a as [|y a].
  - cbn [app]. now rewrite sep_by_cons.
  - change ((x :: y :: a) ++ b) with (x :: ((y :: a) ++ b)).
    rewrite sep_by_cons by easy. rewrite IH by easy. rewrite (sep_by_cons sep x (y :: a)) by easy.
    now rewrite !app_assoc.
Qed.
Lemma sep_by_concat sep l : Forall (fun ps => ps <> []) l ->
  sep_by sep (List.map (sep_by sep) l) = sep_by sep (List.concat l).
Proof.
  induction 1 as [|x l Hx F IH]; [reflexivity|]. cbn [List.map List.concat].
  destruct l as [|y l].
  - cbn [List.map sep_by List.concat]. now rewrite app_nil_r.
  - rewrite sep_by_cons by easy. rewrite IH. rewrite sep_by_app; [reflexivity|assumption|].
    inversion F as [|? ? Hy]; subst. cbn. destruct y; easy.
Qed.

(** ** [create_relation] in terms of pieces *)
Definition rel_tokens (r : relation) : res (list token) :=
  if is_within (rel_op r) then
    match nth_error (ranges_of (rel_list r)) 0 with
    | Some r0 => Ok (sep_by [P "&&"] (within_pieces r r0))
    | None => Panic "index out of bounds"
    end
  else if negated (rel_op r) then
    Ok (sep_by [P "&&"] (List.map (sep_by [P "&&"]) (item_pieces true r)))
  else
    let l := List.map (sep_by [P "&&"]) (item_pieces false r) in
    Ok (if Nat.ltb 1 (List.length l) then [Par (sep_by [P "||"] l)] else sep_by [P "||"] l).

Lemma create_relation_tokens r : create_relation r = rel_tokens r.
Proof.
  unfold create_relation, rel_tokens. rewrite convert_rangl_eq.
  destruct r as [[o m] op l]. cbn [rel_expr rel_op rel_list ex_operand ex_modulus].
  destruct (is_within op) eqn:W.
  - destruct op; try discriminate;
      (destruct (ranges_of l) as [|r0 rs]; [destruct m; reflexivity|]);
      destruct o, m; reflexivity.
  - assert (V : forall neg, List.map (sep_by [P "&&"]) (item_pieces neg (mkRel (mkExpr o m) op l)) =
       List.map (fun k => sep_by [P "&&"] (value_pieces neg (mkExpr o m) k)) (values_of l) ++
       List.map (fun r => sep_by [P "&&"] (range_pieces neg (mkExpr o m) r)) (ranges_of l)).
    { intro neg. unfold item_pieces. cbn [rel_expr rel_list]. now rewrite map_app, !map_map. }
    rewrite !V.
    destruct op; try discriminate; cbn [negated rbind]; destruct m as [m|]; cbn [rbind];
      rewrite !map_map;
      (match goal with
       | |- Ok ?a = Ok ?b => f_equal
       end);
      (match goal with
       | |- context [List.map ?f (values_of l) ++ List.map ?g (ranges_of l)] =>
           match goal with
           | |- context [List.map (fun k => sep_by _ (value_pieces ?neg ?ex k)) (values_of l)] =>
               replace (List.map f (values_of l)) with (List.map (fun k => sep_by [P "&&"] (value_pieces neg ex k)) (values_of l));
               [replace (List.map g (ranges_of l)) with (List.map (fun k => sep_by [P "&&"] (range_pieces neg ex k)) (ranges_of l)); [reflexivity|]|]
           end
       end); apply map_ext; intro; destruct o; reflexivity.
Qed.

Lemma Forall2_concat {A B} (R : A -> B -> Prop) l l' :
  Forall2 (Forall2 R) l l' -> Forall2 R (List.concat l) (List.concat l').
Proof. induction 1; cbn [List.concat]; [constructor|]. now apply Forall2_app. Qed.

(** The pieces of a relation: its tokens are atoms joined by [&&]. *)
Lemma rel_pieces_ok r es : rel_conjs r = Some es ->
  exists ps, create_relation r = Ok (sep_by [P "&&"] ps) /\ ps <> [] /\ Forall2 atom ps es.
Proof.
  rewrite create_relation_tokens. unfold rel_conjs, rel_tokens.
  destruct (is_within (rel_op r)) eqn:W.
  - destruct (nth_error (ranges_of (rel_list r)) 0) as [r0|]; [|discriminate].
    intro H. injection H as <-. exists (within_pieces r r0). split; [reflexivity|].
    split; [easy|apply within_atoms].
  - destruct (negated (rel_op r)).
    + pose proof (item_atoms true r) as A. pose proof (item_pieces_ne true r) as NE.
      destruct (item_conjs true r) as [|c cs] eqn:E; [discriminate|].
      intro H. injection H as <-. exists (List.concat (item_pieces true r)).
      split; [now rewrite sep_by_concat|]. split.
      * destruct (item_pieces true r) as [|p ps]; [inversion A|]. inversion NE; subst. cbn. now destruct p.
      * change (c ++ List.concat cs) with (List.concat (c :: cs)). now apply Forall2_concat.
    + pose proof (item_atoms false r) as A. pose proof (item_pieces_ne false r) as NE.
      destruct (item_conjs false r) as [|c cs] eqn:E; [discriminate|].
      destruct cs as [|c2 cs].
      * intro H. injection H as <-. inversion A as [|p ? ps ? A1 A2 E1]; subst.
        inversion A2; subst. exists p. rewrite <- E1 in *. cbn [List.map List.length Nat.ltb Nat.leb sep_by].
        split; [reflexivity|]. split; [now inversion NE|assumption].
      * intro H. injection H as <-. inversion A as [|p ? ps ? A1 A2 E1]; subst.
        inversion A2 as [|p2 ? ps2 ? A3 A4 E2]; subst. rewrite <- E1 in *.
        eexists [[Par _]]. split; [reflexivity|]. split; [easy|].
        constructor; [|constructor]. apply atom_par.
        apply (reads_or (p :: p2 :: ps2) (c :: c2 :: cs)); [easy|assumption|assumption].
Qed.

(** ** The expression of a whole condition *)
Fixpoint opt_concat {A} (l : list (option (list A))) : option (list A) :=
  match l with
  | [] => Some []
  | x :: r => match x, opt_concat r with Some a, Some b => Some (a ++ b) | _, _ => None end
  end.
Definition and_expr (a : and_condition) : option bexpr :=
  match opt_concat (List.map rel_conjs a) with
  | Some (e :: l) => Some (joinl BAnd (e :: l))
  | _ => None
  end.
Definition cond_expr (c : condition) : option bexpr :=
  match map_opt and_expr c with
  | Some (e :: l) => Some (joinl BOr (e :: l))
  | _ => None
  end.

Lemma and_atoms a es : opt_concat (List.map rel_conjs a) = Some es -> a <> [] ->
  exists v pss, map_res create_relation a = Ok v /\ v = List.map (sep_by [P "&&"]) pss /\
    Forall (fun ps => ps <> []) pss /\ pss <> [] /\ Forall2 atom (List.concat pss) es.
Proof.
  revert es. induction a as [|r a IH]; [easy|]. intros es. cbn [List.map opt_concat map_res].
  destruct (rel_conjs r) as [cr|] eqn:C; [|discriminate].
  destruct (opt_concat (List.map rel_conjs a)) as [ca|] eqn:CA; [|discriminate].
  intros H _. injection H as <-.
  destruct (rel_pieces_ok r cr C) as (ps & E & N & F). rewrite E. cbn [rbind].
  destruct a as [|r2 a].
  - cbn in CA. injection CA as <-. cbn [map_res rbind]. exists [sep_by [P "&&"] ps], [ps].
    split; [reflexivity|]. split; [reflexivity|]. split; [repeat constructor; assumption|].
    split; [easy|]. cbn. now rewrite !app_nil_r.
  - destruct (IH ca eq_refl ltac:(easy)) as (v & pss & E2 & V & NN & N2 & F2).
    rewrite E2. cbn [rbind]. exists (sep_by [P "&&"] ps :: v), (ps :: pss). split; [reflexivity|].
    split; [now rewrite V|]. split; [constructor; assumption|]. split; [easy|]. now apply Forall2_app.
Qed.
Lemma and_expr_ok a e : and_expr a = Some e ->
  exists ts, create_and_condition a = Ok ts /\ atom ts e.
Proof.
  unfold and_expr. destruct (opt_concat (List.map rel_conjs a)) as [[|e0 es]|] eqn:C; try discriminate.
  intro H. injection H as <-.
  destruct (and_atoms a (e0 :: es) C) as (v & pss & E & V & NN & N & F).
  { intros ->. discriminate C. }
  unfold create_and_condition. rewrite E. cbn [rbind]. eexists. split; [reflexivity|].
  apply atom_par. rewrite V, sep_by_concat by assumption. apply (reads_and _ (e0 :: es)); [|assumption].
  destruct pss as [|p pss]; [easy|]. inversion NN; subst. cbn. now destruct p.
Qed.
Lemma cond_atoms c es : map_opt and_expr c = Some es ->
  exists v, map_res create_and_condition c = Ok v /\ Forall2 atom v es.
Proof.
  revert es. induction c as [|a c IH]; intros es; cbn [map_opt map_res].
  - intro H. injection H as <-. exists []. split; [reflexivity|constructor].
  - destruct (and_expr a) as [e|] eqn:E; [|discriminate].
    destruct (map_opt and_expr c) as [es'|]; [|discriminate]. intro H. injection H as <-.
    destruct (and_expr_ok a e E) as (ts & Et & At). rewrite Et. cbn [rbind].
    destruct (IH es' eq_refl) as (v & Ev & Av). rewrite Ev. cbn [rbind].
    eexists. split; [reflexivity|]. now constructor.
Qed.
Lemma cond_expr_ok c e : cond_expr c = Some e ->
  exists ts, gen_pr c = Ok ts /\ read_bexpr ts = Some e.
Proof.
  unfold cond_expr. destruct (map_opt and_expr c) as [[|e0 es]|] eqn:C; try discriminate.
  intro H. injection H as <-.
  destruct (cond_atoms c (e0 :: es) C) as (v & E & A).
  unfold gen_pr, create_condition. rewrite E. cbn [rbind]. eexists. split; [reflexivity|].
  apply reads_bexpr.
  assert (R := reads_or (List.map (fun t => [t]) v) (List.map (fun e => [e]) (e0 :: es))).
  rewrite !map_map in R.
  replace (List.map (fun x => sep_by [P "&&"] [x]) v) with v in R by (symmetry; apply map_id).
  replace (List.map (fun x => joinl BAnd [x]) (e0 :: es)) with (e0 :: es) in R by (symmetry; apply map_id).
  apply R.
  - inversion A; subst. easy.
  - clear. induction v; constructor; [easy|assumption].
  - clear -A. induction A; constructor; [|assumption]. constructor; [assumption|constructor].
Qed.
