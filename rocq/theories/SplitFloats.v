(** * C105: where the generated text needs rustfmt to be Rust

    [quote!(#r.0)] (gen_pr.rs:93, 118) gives three tokens, printed [1 . 0].  In Rust
    source text that is not a floating-point literal but field 0 of the integer 1;
    only once the blanks are removed (rustfmt prints a field access without them)
    the same characters are the literal [1.0]. *)
From Coq Require Import Lia Permutation.
From Verif Require Import Base Ast CldrParser LangId Tokens GenPr GenRs Json MakeRules FileSpec MakeFacts MakeRead MakeTable MakeBody MakeProps MakeMore CodeSpec DigitFacts.
From Verif Require Import Tables Shipped TextRules TextCardinals37 TextOrdinals37.
From Verif Require LexFacts HostWidth.
Open Scope N_scope.

(** ** A number, a point and a number as separate tokens, at any depth *)
Inductive split_float : list token -> Prop :=
| split_here a k z b : split_float (a ++ TLit k :: P "." :: TLit z :: b)
| split_inside a d ts b : split_float ts -> split_float (a ++ TGroup d ts :: b).

(** relations that compare [n] itself with a number; a list of ranges is tested with [i] *)
Definition is_single (it : range_list_item) : bool := match it with RValue _ => true | RRange _ => false end.
Definition needs_float (r : relation) : bool :=
  plain_n (rel_expr r) &&
  match rel_op r with OpWithin | OpNotWithin => true | _ => existsb is_single (rel_list r) end.

(** ** As a test *)
Definition is_dot (t : token) : bool := match t with TPunct p => bytes_eqb p (bs ".") | _ => false end.
Definition is_lit (t : token) : bool := match t with TLit _ => true | _ => false end.
Fixpoint here (ts : list token) : bool :=
  match ts with
  | [] => false
  | a :: r => match r with b :: c :: _ => is_lit a && is_dot b && is_lit c | _ => false end || here r
  end.
Fixpoint inside (t : token) : bool :=
  match t with
  | TGroup _ ts => here ts || (fix any ts := match ts with [] => false | t :: r => inside t || any r end) ts
  | _ => false
  end.
Definition splits (ts : list token) : bool := here ts || existsb inside ts.
Lemma inside_group d ts : inside (TGroup d ts) = splits ts.
Proof. reflexivity. Qed.

Lemma is_dot_ok t : is_dot t = true -> t = P ".".
Proof. destruct t; try discriminate. cbn. intro H. apply bytes_eqb_eq in H. now subst. Qed.
Lemma here_ok ts : here ts = true <-> exists a k z b, ts = a ++ TLit k :: P "." :: TLit z :: b.
Proof.
  split.
  - induction ts as [|x r IH]; [discriminate|]. cbn [here]. intro H. apply orb_prop in H as [H|H].
    + destruct r as [|y [|w r]]; try discriminate. apply andb_prop in H as [H H3]. apply andb_prop in H as [H1 H2].
      apply is_dot_ok in H2. destruct x as [| |k|]; try discriminate. destruct w as [| |z|]; try discriminate.
      exists [], k, z, r. now subst.
    + destruct (IH H) as (a & k & z & b & ->). now exists (x :: a), k, z, b.
  - intros (a & k & z & b & ->). induction a as [|x a IH]; [reflexivity|]. cbn [app here]. rewrite IH. apply Bool.orb_true_r.
Qed.
Fixpoint size (t : token) : nat :=
  match t with TGroup _ ts => S ((fix go ts := match ts with [] => O | t :: r => size t + go r end) ts) | _ => 1 end%nat.
Definition sizes (ts : list token) : nat := fold_right (fun t n => size t + n)%nat O ts.
Lemma size_group d ts : size (TGroup d ts) = S (sizes ts).
Proof. reflexivity. Qed.
Lemma size_in t ts : In t ts -> (size t <= sizes ts)%nat.
Proof. induction ts as [|u ts IH]; [easy|]. intros [->|I]; cbn; [lia|]. specialize (IH I). fold (sizes ts). lia. Qed.
Lemma splits_ok ts : splits ts = true <-> split_float ts.
Proof.
  split.
  - remember (sizes ts) as n eqn:E. revert ts E. induction n as [n IH] using lt_wf_ind. intros ts -> H. unfold splits in H. apply orb_prop in H as [H|H].
    + apply here_ok in H as (a & k & z & b & ->). constructor.
    + apply existsb_exists in H as (t & I & T). destruct t as [| | |d us]; try discriminate. rewrite inside_group in T.
      pose proof (size_in _ _ I) as S. rewrite size_group in S. apply in_split in I as (a & b & ->). constructor.
      apply (IH (sizes us)); auto. 
  - induction 1 as [a k z b|a d ts b H IH]; unfold splits.
    + apply Bool.orb_true_iff. left. apply here_ok. now exists a, k, z, b.
    + apply Bool.orb_true_iff. right. apply existsb_exists. exists (TGroup d ts). split; [apply in_or_app; right; now left|].
      now rewrite inside_group.
Qed.

(** ** Pieces that neither begin nor end with a point *)
Definition first_ok (ts : list token) : bool := match ts with t :: _ => negb (is_dot t) | [] => true end.
Fixpoint last_ok (ts : list token) : bool :=
  match ts with [] => true | t :: r => match r with [] => negb (is_dot t) | _ => last_ok r end end.
Record piece (ts : list token) (b : bool) : Prop := { pc_first : first_ok ts = true; pc_last : last_ok ts = true; pc_splits : splits ts = b }.

Lemma here_app a b : last_ok a = true -> first_ok b = true -> here (a ++ b) = here a || here b.
Proof.
  intros L F. induction a as [|x a IH]; [reflexivity|]. cbn [app].
  assert (L' : last_ok a = true) by (destruct a; [reflexivity|exact L]). specialize (IH L').
  change (here (x :: a ++ b)) with (match a ++ b with y :: z :: _ => is_lit x && is_dot y && is_lit z | _ => false end || here (a ++ b)).
  rewrite IH. cbn [here]. rewrite Bool.orb_assoc. f_equal. f_equal.
  destruct a as [|y [|z a]]; cbn [app].
  - destruct b as [|y [|z b]]; try reflexivity. cbn [first_ok] in F. destruct (is_dot y); [discriminate|].
    now rewrite Bool.andb_false_r.
  - cbn [last_ok] in L. destruct (is_dot y); [discriminate|]. destruct b; [reflexivity|]. now rewrite Bool.andb_false_r.
  - reflexivity.
Qed.
Lemma last_app a b : last_ok a = true -> last_ok b = true -> last_ok (a ++ b) = true.
Proof.
  intros A B. induction a as [|x a IH]; [exact B|]. destruct a as [|y a].
  - cbn [app last_ok]. destruct b; [exact A|exact B].
  - exact (IH A).
Qed.
Lemma piece_app a b x y : piece a x -> piece b y -> piece (a ++ b) (x || y).
Proof.
  intros [A1 A2 A3] [B1 B2 B3]. constructor.
  - destruct a; [exact B1|exact A1].
  - now apply last_app.
  - unfold splits in *. rewrite here_app, existsb_app by assumption. rewrite <- A3, <- B3.
    destruct (here a), (here b), (existsb inside a), (existsb inside b); reflexivity.
Qed.
Lemma piece_nil : piece [] false.
Proof. constructor; reflexivity. Qed.
Lemma piece_tok t : is_dot t = false -> piece [t] (inside t).
Proof. intro H. constructor; [cbn; now rewrite H|cbn; now rewrite H|]. unfold splits. cbn. now rewrite Bool.orb_false_r. Qed.
Lemma piece_group d ts b : splits ts = b -> piece [TGroup d ts] b.
Proof. intro H. pose proof (piece_tok (TGroup d ts) eq_refl) as P. now rewrite inside_group, H in P. Qed.
Lemma piece_cons t ts b : is_dot t = false -> inside t = false -> piece ts b -> piece (t :: ts) b.
Proof. intros D I P. change (t :: ts) with ([t] ++ ts). change b with (false || b). apply piece_app; [|exact P]. rewrite <- I. now apply piece_tok. Qed.
Lemma piece_sep s xs bools : is_dot (P s) = false -> Forall2 piece xs bools -> piece (sep_by [P s] xs) (existsb (fun b => b) bools).
Proof.
  intros D F. induction F as [|x b xs bools X F IH]; [apply piece_nil|]. destruct F as [|y b' xs bools Y F].
  - cbn [sep_by existsb]. now rewrite Bool.orb_false_r.
  - change (sep_by [P s] (x :: y :: xs)) with (x ++ [P s] ++ sep_by [P s] (y :: xs)).
    cbn [existsb]. apply piece_app; [exact X|]. now apply piece_cons.
Qed.
Lemma piece_map {A} (f : A -> list token) (g : A -> bool) l : (forall x, In x l -> piece (f x) (g x)) -> Forall2 piece (List.map f l) (List.map g l).
Proof. induction l as [|x l IH]; intro H; constructor; [apply H; now left|apply IH; intros; apply H; now right]. Qed.
Lemma existsb_map_id {A} (g : A -> bool) l : existsb (fun b => b) (List.map g l) = existsb g l.
Proof. induction l as [|x l IH]; [reflexivity|]. cbn. now rewrite IH. Qed.

(** ** Relations *)
Lemma piece_field t : is_dot t = false -> is_lit t = false -> inside t = false -> piece (po_field t) false.
Proof. intros D L I. constructor; [reflexivity|cbn; now rewrite D|]. unfold splits. cbn. now rewrite I. Qed.
Lemma piece_field_mod t m : is_dot t = false -> is_lit t = false -> inside t = false -> piece (po_field_mod t (lit_u64 m)) false.
Proof. intros D L I. constructor; [reflexivity|reflexivity|]. unfold splits. cbn. now rewrite I, Bool.andb_false_r. Qed.
Lemma piece_zero n : piece (dot_zero (lit_u64 n)) true.
Proof. constructor; reflexivity. Qed.
Lemma op_plain o : is_dot (get_operator_symbol o) = false /\ is_lit (get_operator_symbol o) = false /\ inside (get_operator_symbol o) = false.
Proof. destruct o; repeat split; reflexivity. Qed.
Lemma ident_plain o : is_dot (operand_ident o) = false /\ is_lit (operand_ident o) = false /\ inside (operand_ident o) = false.
Proof. destruct o; repeat split; reflexivity. Qed.
Lemma splits_Par ts b : piece ts b -> piece [Par ts] b.
Proof. intros [_ _ H]. now apply piece_group. Qed.
Definition singles (l : range_list) : list N := flat_map (fun x => match x with RValue v => [v] | RRange _ => [] end) l.
Definition pairs (l : range_list) : list (N * N) := flat_map (fun x => match x with RRange r => [(lower_val r, upper_val r)] | RValue _ => [] end) l.
Lemma convert_eq l : convert_rangl l = (List.map lit_u64 (singles l), List.map (fun p => (lit_u64 (fst p), lit_u64 (snd p))) (pairs l)).
Proof.
  unfold convert_rangl, singles, pairs. f_equal; induction l as [|[r|v] l IH]; cbn; now rewrite ?IH.
Qed.
Lemma singles_exist l : existsb is_single l = match singles l with [] => false | _ => true end.
Proof. induction l as [|[r|v] l IH]; [reflexivity|exact IH|reflexivity]. Qed.
Lemma existsb_const {A} (b : bool) (l : list A) : existsb (fun _ => b) l = match l with [] => false | _ => b end.
Proof. destruct b; induction l as [|x l IH]; cbn; try rewrite IH; try reflexivity. now destruct l. Qed.
Lemma piece_val (sym : list token) o n (fl : bool) : piece sym false -> 
  piece (sym ++ [get_operator_symbol o] ++ (if fl then dot_zero (lit_u64 n) else [lit_u64 n])) fl.
Proof.
  intro S. change fl with (false || fl) at 2. apply piece_app; [exact S|]. destruct (op_plain o) as (A & B & C). apply piece_cons; auto.
  destruct fl; [apply piece_zero|]. now apply (piece_tok (lit_u64 n)).
Qed.
Lemma piece_body a b sym : piece sym false ->
  piece [Par [lit_u64 a; P "..="; lit_u64 b]; P "."; I "contains"; Par [P "&"; Par sym]] false.
Proof.
  intros S. constructor; try reflexivity. 
  assert (X : splits [P "&"; Par sym] = false).
  { exact (pc_splits _ _ (piece_cons (P "&") _ _ eq_refl eq_refl (splits_Par _ _ S))). }
  change (false || (splits [lit_u64 a; P "..="; lit_u64 b] || (false || (false || (splits [P "&"; Par sym] || false)))) = false).
  now rewrite X.
Qed.
Lemma piece_relations (op : operator) (relations : list (list token)) b : piece (sep_by [P "||"] relations) b -> piece (sep_by [P "&&"] relations) b ->
  piece (match op with
      | OpIn | OpIs | OpEQ =>
          if Nat.ltb 1 (List.length relations) then [Par (sep_by [P "||"] relations)]
          else sep_by [P "||"] relations
      | OpNotIn | OpNotEQ | OpIsNot => sep_by [P "&&"] relations
      | OpWithin | OpNotWithin => sep_by [P "||"] relations
      end) b.
Proof. intros A B. destruct op; auto; destruct (Nat.ltb _ _); auto; now apply splits_Par. Qed.
Lemma relation_pieces op relations bools : Forall2 piece relations bools -> 
  piece (match op with
      | OpIn | OpIs | OpEQ =>
          if Nat.ltb 1 (List.length relations) then [Par (sep_by [P "||"] relations)]
          else sep_by [P "||"] relations
      | OpNotIn | OpNotEQ | OpIsNot => sep_by [P "&&"] relations
      | OpWithin | OpNotWithin => sep_by [P "||"] relations
      end) (existsb (fun b => b) bools).
Proof. intro F. apply piece_relations; now apply piece_sep. Qed.
Lemma Forall2_piece_map {A} (f : A -> list token) b l : (forall x, In x l -> piece (f x) b) -> Forall2 piece (List.map f l) (List.map (fun _ => b) l).
Proof. intro H. now apply piece_map. Qed.
Lemma ok_inj {A} (x y : A) : Ok x = Ok y -> y = x.
Proof. congruence. Qed.
Lemma relation_splits r ts : create_relation r = Ok ts -> piece ts (needs_float r).
Proof.
  destruct r as [[o m] op l]. unfold create_relation, needs_float, plain_n. cbn [rel_expr rel_op rel_list ex_operand ex_modulus].
  rewrite convert_eq, singles_exist.
  assert (FO : piece (po_field (operand_ident o)) false) by (destruct (ident_plain o) as (A & B & C); now apply piece_field).
  assert (FM : forall k, piece (po_field_mod (operand_ident o) (lit_u64 k)) false) by (intro; destruct (ident_plain o) as (A & B & C); now apply piece_field_mod).
  assert (FI : piece (po_field (I "i")) false) by (now apply piece_field).
  assert (FN : forall k, piece (po_field_mod (I "i") (lit_u64 k)) false) by (intro; now apply piece_field_mod).
  replace (match o with ON => match m with None => true | Some _ => false end | _ => false end) with (is_n o && match m with Some _ => false | None => true end)
    by (destruct o, m; reflexivity).
  set (fl := is_n o && match m with Some _ => false | None => true end).
  assert (MP : match m with Some v => (true, lit_u64 v) | None => (false, lit_u64 0) end =
    (match m with Some _ => true | None => false end, lit_u64 (match m with Some v => v | None => 0 end))) by (now destruct m).
  rewrite MP. clear MP.
  intro H. apply rbind_ok in H as (relations & H & E). injection E as <-.
  assert (exists bools, Forall2 piece relations bools /\
    existsb (fun b => b) bools = fl && match op with OpWithin | OpNotWithin => true | _ => match singles l with [] => false | _ => true end end) as (bools & F & X).
  { assert (W : forall r0, nth_error (List.map (fun p => (lit_u64 (fst p), lit_u64 (snd p))) (pairs l)) 0 = Some r0 -> exists a b, r0 = (lit_u64 a, lit_u64 b)).
    { destruct (pairs l) as [|[a b] q]; cbn; intros r0 R; [discriminate|]. injection R as <-. eauto. }
    assert (IN : (op = OpWithin \/ op = OpNotWithin) \/ (op <> OpWithin /\ op <> OpNotWithin)) by (destruct op; try (left; tauto); right; split; discriminate).
    destruct IN as [IN|IN].
    - assert (G : exists a b whole, piece whole false /\ relations = [(if fl then dot_zero (lit_u64 a) else [lit_u64 a]) ++ [get_operator_symbol op] ++ whole ++ [P "&&"] ++ whole ++ [get_operator_symbol op] ++ (if fl then dot_zero (lit_u64 b) else [lit_u64 b])]).
      { destruct IN as [-> | ->]; apply rbind_ok in H as (r0 & R & H); apply unwrap_ok in R; destruct (W _ R) as (a & b & ->); exists a, b; subst fl; 
          destruct (is_n o), m; cbn [negb andb] in H |- *; apply ok_inj in H; rewrite H; eexists; (split; [|reflexivity]); auto. }
      destruct G as (a & b & whole & WH & ->). exists [fl]. destruct (op_plain op) as (A & B & C). split.
      + constructor; [|constructor].
        assert (V : forall n, piece (if fl then dot_zero (lit_u64 n) else [lit_u64 n]) fl).
        { intro n. destruct fl; [apply piece_zero|]. now apply (piece_tok (lit_u64 n)). }
        pose proof (piece_app _ _ false fl WH (piece_cons (get_operator_symbol op) _ fl A C (V b))) as T1.
        pose proof (piece_app _ _ false fl WH (piece_cons (P "&&") _ fl eq_refl eq_refl T1)) as T2.
        pose proof (piece_app _ _ fl fl (V a) (piece_cons (get_operator_symbol op) _ fl A C T2)) as T3.
        rewrite Bool.orb_diag in T3. exact T3.
      + cbn. destruct IN as [-> | ->]; now rewrite Bool.orb_false_r, Bool.andb_true_r.
    - assert (G : exists symv symr perim neg, piece symv false /\ piece symr false /\ piece perim false /\
        relations = List.map (fun r => symv ++ [get_operator_symbol op] ++ (if fl then dot_zero r else [r])) (List.map lit_u64 (singles l))
          ++ List.map (fun '(rfront, rback) => (if neg : bool then [P "!"] else []) ++ [Par [rfront; P "..="; rback]; P "."; I "contains"; Par [P "&"; Par symr]] ++ perim)
               (List.map (fun p => (lit_u64 (fst p), lit_u64 (snd p))) (pairs l))).
      { assert (PR : piece ([P "&&"] ++ po_field (I "f") ++ [P "=="; TLit (bs "0")]) false) by (constructor; reflexivity).
        assert (PN : piece ([] : list token) false) by apply piece_nil.
        exists (match m with None => po_field (operand_ident o) | Some k => if is_n o then po_field_mod (I "i") (lit_u64 k) else po_field_mod (operand_ident o) (lit_u64 k) end).
        exists (if is_n o then po_field (I "i") else match m with None => po_field (operand_ident o) | Some k => po_field_mod (operand_ident o) (lit_u64 k) end).
        exists (if fl then [P "&&"] ++ po_field (I "f") ++ [P "=="; TLit (bs "0")] else []).
        exists (match op with OpIn | OpIs | OpEQ => false | _ => true end).
        subst fl. split; [destruct m, (is_n o); auto|]. split; [destruct m, (is_n o); auto|]. split; [destruct m, (is_n o); auto|].
        destruct op; try (now destruct IN); apply ok_inj in H; rewrite H; destruct (is_n o), m; reflexivity. }
      destruct G as (symv & symr & perim & neg & SV & SR & PE & ->).
      exists (List.map (fun _ => fl) (singles l) ++ List.map (fun _ => false) (pairs l)). split.
      + apply Forall2_app.
        * rewrite map_map. apply Forall2_piece_map. intros n _. now apply piece_val.
        * rewrite map_map. apply Forall2_piece_map. intros [a b] _. cbn [fst snd].
          assert (Q : piece ([Par [lit_u64 a; P "..="; lit_u64 b]; P "."; I "contains"; Par [P "&"; Par symr]] ++ perim) false).
          { change false with (false || false). apply piece_app; [now apply piece_body|exact PE]. }
          destruct neg; [now apply piece_cons|exact Q].
      + rewrite existsb_app, !existsb_map_id, !existsb_const. destruct (pairs l), (singles l), op, fl; try reflexivity; now destruct IN. }
  rewrite <- X. now apply relation_pieces.
Qed.

(** ** Conditions *)
Definition condition_needs_float (c : condition) : bool := existsb (existsb needs_float) c.
Lemma map_pieces {A} (f : A -> res (list token)) (g : A -> bool) : (forall a ts, f a = Ok ts -> piece ts (g a)) ->
  forall l v, map_res f l = Ok v -> Forall2 piece v (List.map g l).
Proof.
  intros F l v H. apply map_res_ok in H. induction H as [|a ts l v X H IH]; constructor; auto.
Qed.
Lemma and_splits a ts : create_and_condition a = Ok ts -> piece ts (existsb needs_float a).
Proof.
  unfold create_and_condition. intro H. apply rbind_ok in H as (v & V & H). apply ok_inj in H. subst ts.
  apply splits_Par. rewrite <- existsb_map_id. apply piece_sep; [reflexivity|]. exact (map_pieces _ _ relation_splits _ _ V).
Qed.
Lemma pr_splits c ts : gen_pr c = Ok ts -> piece ts (condition_needs_float c).
Proof.
  unfold gen_pr, create_condition. intro H. apply rbind_ok in H as (v & V & H). apply ok_inj in H. subst ts.
  unfold condition_needs_float. rewrite <- existsb_map_id. apply piece_sep; [reflexivity|]. exact (map_pieces _ _ and_splits _ _ V).
Qed.
Lemma needs_float_iff c : condition_needs_float c = true <-> exists a r, In a c /\ In r a /\ needs_float r = true.
Proof.
  unfold condition_needs_float. rewrite existsb_exists. split.
  - intros (a & A & H). apply existsb_exists in H as (r & R & H). now exists a, r.
  - intros (a & r & A & R & H). exists a. split; [auto|]. apply existsb_exists. now exists r.
Qed.
Lemma C105_condition c ts : gen_pr c = Ok ts -> (split_float ts <-> exists a r, In a c /\ In r a /\ needs_float r = true).
Proof. intro H. rewrite <- splits_ok, (pc_splits _ _ (pr_splits _ _ H)). apply needs_float_iff. Qed.

(** ** Entries *)
Lemma piece_ret c : piece [ret c] false.
Proof. destruct c; constructor; reflexivity. Qed.
Lemma piece_return c e b : c <> OTHER -> piece e b -> piece (create_return c e) b.
Proof.
  intros N P. assert (X : piece (I "if" :: e ++ [ret c]) (b || false)) by (apply piece_cons; auto; apply piece_app; [auto|apply piece_ret]).
  rewrite Bool.orb_false_r in X. destruct c; try exact X. now destruct N.
Qed.
Lemma chain_fold rest bs0 : Forall2 (fun ce b => fst ce <> OTHER /\ piece (snd ce) b) rest bs0 -> forall acc b, piece acc b ->
  piece (fold_left (fun tokens '(c, e) => tokens ++ [I "else"] ++ create_return c e) rest acc) (b || existsb (fun b => b) bs0).
Proof.
  induction 1 as [|[c e] x rest bs0 [N X] F IH]; intros acc b A; cbn [fold_left existsb].
  - now rewrite Bool.orb_false_r.
  - rewrite Bool.orb_assoc. apply IH. apply piece_app; [exact A|]. apply piece_cons; [reflexivity|reflexivity|]. now apply piece_return.
Qed.
Lemma chain_splits set bools : Forall2 (fun ce b => fst ce <> OTHER /\ piece (snd ce) b) set bools -> piece (gen_chain set) (existsb (fun b => b) bools).
Proof.
  intro F. destruct F as [|[c e] b rest bools [N X] F]; [apply piece_ret|]. cbn [gen_chain existsb].
  rewrite <- (Bool.orb_false_r (b || _)). apply piece_app; [apply chain_fold; [exact F|now apply piece_return]|].
  apply piece_cons; [reflexivity|reflexivity|apply piece_ret].
Qed.
Lemma langid_splits id : piece (gen_langid id) false.
Proof.
  constructor; [reflexivity|reflexivity|]. destruct id as [[l|] [s|] [r|] v]; reflexivity.
Qed.
Lemma mid_splits id set bools : Forall2 (fun ce b => fst ce <> OTHER /\ piece (snd ce) b) set bools -> piece (gen_mid id set) (existsb (fun b => b) bools).
Proof.
  intro F. unfold gen_mid. apply splits_Par. change (existsb (fun b => b) bools) with (false || existsb (fun b => b) bools).
  apply piece_app; [apply langid_splits|]. do 4 (apply piece_cons; [reflexivity|reflexivity|]). apply piece_group. exact (pc_splits _ _ (chain_splits _ _ F)).
Qed.
Definition rules_need_float (cs : list (category * condition)) : bool := existsb (fun cc => not_other cc && condition_needs_float (snd cc)) cs.
Lemma lang_splits set cs :
  Forall2 (fun cc ce => fst cc = fst ce /\ gen_pr (snd cc) = Ok (snd ce)) (List.filter not_other cs) set ->
  forall id, piece (gen_mid id set) (rules_need_float cs).
Proof.
  intros F id.
  assert (E : rules_need_float cs = existsb (fun b => b) (List.map (fun cc => condition_needs_float (snd cc)) (List.filter not_other cs))).
  { unfold rules_need_float. rewrite existsb_map_id. induction cs as [|cc cs IH] in |- *; [reflexivity|]. cbn [existsb List.filter].
    destruct (not_other cc); cbn [andb orb existsb]; now rewrite IH. }
  rewrite E. apply mid_splits.
  assert (K : Forall (fun cc => not_other cc = true) (List.filter not_other cs)) by (apply Forall_forall; intros x J; now apply filter_In in J).
  clear E. induction F as [|[c co] [c' e] ? ? [X Y] B IH]; [constructor|]. inversion K as [|? ? K1 K2]; subst. cbn [List.map]. constructor; [|auto].
  cbn [fst snd] in *. subst c'. split; [intros ->; discriminate|now apply pr_splits].
Qed.

(** ** Files *)
Section Width.
Context {ptr : ptr_width}.
Lemma header_splits num : piece (ignore_noncritical_errors ++ use_statements ++ plural_function ++ version_item (Z.to_N (num mod 2 ^ 64)%Z) ++ langid_macro) false.
Proof.
  set (n := Z.to_N _). clearbody n. constructor; [reflexivity|reflexivity|]. unfold splits. apply Bool.orb_false_iff.
  split; vm_compute; reflexivity.
Qed.
Lemma table_splits t s bools : Forall2 piece s bools -> piece (table_stream t (Some s)) (existsb (fun b => b) bools).
Proof.
  intro F. cbn [table_stream]. unfold create_pr_type. destruct t;
  do 8 (apply piece_cons; [reflexivity|reflexivity|]);
  (rewrite <- (Bool.orb_false_r (existsb _ _)); change [Bracket (sep_by [P ","] s); P ";"] with ([Bracket (sep_by [P ","] s)] ++ [P ";"]); apply piece_app;
   [apply piece_group; apply (pc_splits _ _ (piece_sep "," _ _ eq_refl F))|constructor; reflexivity]).
Qed.
Definition locale_needs_float (d : rule_map) : Prop :=
  exists key id cs c co a r, input_locale d key id cs /\ In (c, co) cs /\ c <> OTHER /\ In a co /\ In r a /\ needs_float r = true.
Lemma rules_iff cs : rules_need_float cs = true <-> exists c co a r, In (c, co) cs /\ c <> OTHER /\ In a co /\ In r a /\ needs_float r = true.
Proof.
  unfold rules_need_float. rewrite existsb_exists. split.
  - intros ([c co] & J & H). apply andb_prop in H as [H1 H2]. apply needs_float_iff in H2 as (a & r & A & R & H2).
    exists c, co, a, r. split; [auto|]. split; [intros ->; discriminate|auto].
  - intros (c & co & a & r & J & N & A & R & H). exists (c, co). split; [auto|]. apply andb_true_intro. split; [now destruct c|].
    apply needs_float_iff. now exists a, r.
Qed.
Lemma type_splits srt d ts : sorts srt -> gen_type_rs srt d = Ok ts ->
  Forall2 piece ts (List.map splits ts) /\ (existsb splits ts = true <-> locale_needs_float d).
Proof.
  intros S H. apply type_ok in H as (l & L & F). pose proof (proj1 (S _ l)) as PM.
  assert (G : Forall2 (fun ir s => exists cs, Forall2 rule_reads (snd ir) cs /\ piece s (rules_need_float cs)) (srt _ l) ts).
  { clear -F. induction F as [|ir s ? ? (set & R & ->) F IH]; constructor; [|exact IH]. apply lang_rules_ok in R as (cs & A & B).
    exists cs. split; [exact A|]. exact (lang_splits set cs B (fst ir)). }
  split.
  - clear -G. induction G as [|ir s ? ? (cs & _ & P) G IH]; constructor; [|exact IH]. now rewrite (pc_splits _ _ P).
  - rewrite existsb_exists. split.
    + intros (s & J & H). destruct (Forall2_in_r _ _ _ _ G J) as ([id rules] & K & cs & A & P). cbn [snd] in A.
      rewrite (pc_splits _ _ P) in H. apply rules_iff in H as (c & co & a & r & H).
      apply (Permutation_in _ (Permutation_sym PM)) in K. destruct (input_locale_of d l id rules cs L K A) as (key & K').
      exists key, id, cs, c, co, a, r. auto.
    + intros (key & id & cs & c & co & a & r & (NR & ID & rules & J & A) & H).
      assert (K : In (id, rules) l).
      { apply parse_keys_ok in L. assert (J' : In (key, rules) (List.filter (fun kv : bytes * bmap bytes => negb (is_root (fst kv))) d)).
        { apply filter_In. split; [exact J|]. cbn [fst]. destruct (is_root key) eqn:E; [|reflexivity].
          unfold is_root in E. apply bytes_eqb_eq in E. now destruct NR. }
        destruct (Forall2_in_l _ _ _ _ L J') as ([id' rules'] & K & X & Y). cbn [fst snd] in *. subst rules'. congruence. }
      apply (Permutation_in _ PM) in K. destruct (Forall2_in_l _ _ _ _ G K) as (s & K' & cs' & A' & P). cbn [snd] in A'.
      rewrite (rule_reads_unique _ _ _ A' A) in P. exists s. split; [exact K'|]. rewrite (pc_splits _ _ P). apply rules_iff. now exists c, co, a, r.
Qed.
Lemma part_splits srt t rs s : sorts srt -> part_ok srt None (collect t rs) s ->
  exists b, piece (table_stream t s) b /\ (b = true <-> exists r d, In r rs /\ data_of t r = Some d /\ locale_needs_float d).
Proof.
  intros S H. assert (CI : forall d, In d (collect t rs) <-> exists r, In r rs /\ data_of t r = Some d).
  { intro d. unfold collect. rewrite in_flat_map. split; intros (r & J & D); exists r; (split; [exact J|]).
    - destruct (data_of t r); [|easy]. destruct D as [->|[]]. reflexivity.
    - rewrite D. now left. }
  destruct (collect t rs) as [|d [|]]; cbn [part_ok] in H; [| |easy].
  - subst s. exists false. split; [apply piece_nil|]. split; [discriminate|]. intros (r & d & J & D & _). exfalso. apply (proj2 (CI d)). eauto.
  - destruct H as (_ & ts & G & ->). destruct (type_splits _ _ _ S G) as [F E]. exists (existsb (fun b => b) (List.map splits ts)).
    split; [now apply table_splits|]. rewrite existsb_map_id, E. split.
    + intro H. destruct (proj1 (CI d) (or_introl eq_refl)) as (r & J & D). eauto.
    + intros (r & d' & J & D & H). destruct (proj2 (CI d') (ex_intro _ r (conj J D))) as [->|[]]. exact H.
Qed.
Lemma C105_lemma srt jsons rs out : sorts srt -> inputs_are jsons rs -> generate_rs srt jsons = Ok out ->
  exists ts, lex out = Some ts /\ (split_float ts <-> exists t r d, In r rs /\ data_of t r = Some d /\ locale_needs_float d).
Proof.
  intros S I G. apply generate_lex in G as (rs' & v & num & c & o & I' & G & L). rewrite (inputs_unique _ _ _ I' I) in *.
  exists (file_tokens num c o). split; [exact L|]. rewrite <- splits_ok.
  destruct (part_splits srt CARDINAL rs c S (ok_cardinal _ _ _ _ _ _ G)) as (b1 & P1 & E1).
  destruct (part_splits srt ORDINAL rs o S (ok_ordinal _ _ _ _ _ _ G)) as (b2 & P2 & E2).
  assert (PF : piece (file_tokens num c o) (false || (b1 || b2))).
  { unfold file_tokens. rewrite !app_assoc. rewrite <- (app_assoc _ (table_stream CARDINAL c)).
    apply piece_app; [|now apply piece_app]. rewrite <- !app_assoc. apply header_splits. }
  rewrite (pc_splits _ _ PF). cbn [orb]. rewrite Bool.orb_true_iff, E1, E2. split.
  - intros [(r & d & H)|(r & d & H)]; [exists CARDINAL, r, d|exists ORDINAL, r, d]; exact H.
  - intros ([|] & r & d & H); [left|right]; exists r, d; exact H.
Qed.
End Width.

(** the shipped data, and the formatted file that is in the repository *)
Lemma shipped_splits : splits gen37_tokens = true.
Proof. vm_compute. reflexivity. Qed.
Lemma formatted_splits : option_map splits (lex rules_rs) = Some false.
Proof. vm_compute. reflexivity. Qed.
Lemma C105_shipped_64 srt : sorts srt -> exists out ts, generate_rs srt [cardinals37_json; ordinals37_json] = Ok out /\ lex out = Some ts /\ split_float ts.
Proof.
  intros S. exists (print_tokens gen37_tokens), gen37_tokens. split.
  - transitivity (generate_rs insertion_sort [cardinals37_json; ordinals37_json]).
    + apply sorter_irrelevant; [exact S|exact insertion_sorts|]. intros j r t d J. apply distinct_text_ok.
      pose proof shipped_distinct as H. rewrite forallb_forall in H. now apply H.
    + unfold generate_rs. now rewrite gen37_correct.
  - split; [|apply splits_ok; exact shipped_splits].
    assert (T := gen37_correct). apply generate_tokens_ok in T as (rs & v & num & c & o & I & K & T). rewrite T. apply LexFacts.lex_print.
    apply file_wf; [exact (part_wf _ _ _ (ok_cardinal _ _ _ _ _ _ K))|exact (part_wf _ _ _ (ok_ordinal _ _ _ _ _ _ K))].
Qed.
Lemma C105_shipped_lemma {ptr : ptr_width} srt : sorts srt ->
  (exists out ts, generate_rs srt [cardinals37_json; ordinals37_json] = Ok out /\ lex out = Some ts /\ split_float ts) /\
  exists ts, lex rules_rs = Some ts /\ ~ split_float ts.
Proof.
  intros S. split.
  - rewrite HostWidth.C95_any_lemma; [exact (C105_shipped_64 srt S)|exact S|]. intros j [E|[E|[]]]; subst j; [now left|right; now left].
  - pose proof formatted_splits as H. destruct (lex rules_rs) as [ts|]; [|discriminate]. exists ts. split; [reflexivity|].
    rewrite <- splits_ok. cbn in H. congruence.
Qed.
