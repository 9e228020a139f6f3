(** * Lexing a printed token stream gives the tokens back *)
From Coq Require Import Lia.
From Verif Require Import Base Tokens DigitFacts.
Open Scope N_scope.

(** tokens that Rust's lexer can produce *)
Definition wf_ident (w : bytes) : bool :=
  match w with c :: _ => is_ident_start c && forallb is_ident_cont w | [] => false end.
Definition wf_number (w : bytes) : bool :=
  match w with c :: _ => is_digit c && forallb is_ident_cont w | [] => false end.
Definition wf_string (w : bytes) : Prop :=
  exists b, w = 34 :: b ++ [34] /\ forallb (fun x => (32 <=? x) && (x <=? 126) && negb (x =? 34)) b = true.
Lemma string_quotes b : forallb (fun x => (32 <=? x) && (x <=? 126) && negb (x =? 34)) b = true ->
  forallb (fun x => negb (x =? 34)) b = true.
Proof. rewrite !forallb_forall. intros H x I. specialize (H x I). now apply andb_prop in H as [_ H]. Qed.
Definition puncts : list bytes := operators ++ List.map (fun c => [c]) single_puncts.
Fixpoint wf_token (t : token) : Prop :=
  match t with
  | TIdent w => wf_ident w = true
  | TPunct p => In p puncts
  | TLit w => wf_number w = true \/ wf_string w
  | TGroup _ ts => (fix go ts := match ts with [] => True | t :: r => wf_token t /\ go r end) ts
  end.
Definition wf_tokens (ts : list token) : Prop := Forall wf_token ts.
Lemma wf_group d ts : wf_token (TGroup d ts) <-> wf_tokens ts.
Proof.
  change (wf_token (TGroup d ts)) with
    ((fix go ts := match ts with [] => True | t :: r => wf_token t /\ go r end) ts).
  unfold wf_tokens. induction ts as [|t r IH]; [split; auto|]. rewrite Forall_cons_iff, IH. tauto.
Qed.
Lemma print_group d ts : print_token (TGroup d ts) = open_of d ++ print_tokens ts ++ close_of d.
Proof.
  reflexivity || (cbn [print_token]; f_equal; f_equal; induction ts as [|t [|u r] IH]; [reflexivity|reflexivity|];
  cbn [print_tokens]; f_equal; f_equal; exact IH).
Qed.

(** what may follow a token *)
Definition fol (r : bytes) : Prop :=
  match r with [] => True | c :: _ => c = 32 \/ c = 41 \/ c = 93 end.
Lemma fol_ident r : fol r -> span is_ident_cont r = ([], r).
Proof. destruct r as [|c r]; [reflexivity|]. intros [->|[->| ->]]; reflexivity. Qed.
Lemma span_fol w r : forallb is_ident_cont w = true -> fol r -> span is_ident_cont (w ++ r) = (w, r).
Proof.
  intros W F. induction w as [|c w IH]; [now apply fol_ident|]. cbn [forallb] in W. apply andb_prop in W as [C W].
  cbn [app span]. now rewrite C, IH.
Qed.
Lemma op_fol p r : In p puncts -> fol r -> lex_op operators (p ++ r) = Some (p, r).
Proof.
  intros H F. unfold puncts in H. cbn [operators single_puncts bs list_ascii_of_string List.map app In N_of_ascii] in H.
  repeat (destruct H as [<-|H]; [destruct r as [|c r]; [reflexivity|]; destruct F as [->|[->| ->]]; reflexivity|]).
  destruct H.
Qed.
Definition other_start (c : N) : Prop :=
  is_ws c = false /\ c <> 40 /\ c <> 41 /\ c <> 123 /\ c <> 125 /\ c <> 91 /\ c <> 93.
Ltac starts := repeat match goal with |- context [?a =? ?b] => destruct (N.eqb_spec a b); [easy|] end.

Lemma step_ident k c w r cur stk : wf_ident (c :: w) = true -> fol r ->
  lex_go (k) ((c :: w) ++ r) cur stk = match k with [] => None | _ :: k => lex_go k r (TIdent (c :: w) :: cur) stk end.
Proof.
  intros W F. destruct k as [|x k]; [reflexivity|]. cbn [wf_ident] in W. apply andb_prop in W as [C W].
  assert (NW : is_ws c = false /\ c <> 40 /\ c <> 41 /\ c <> 123 /\ c <> 125 /\ c <> 91 /\ c <> 93).
  { unfold is_ident_start, is_alpha, is_ws in *. lia. }
  destruct NW as (E & N). assert (S := span_fol (c :: w) r W F). cbn [lex_go app]. cbn [app] in S. rewrite E.
  destruct (c =? 40) eqn:?; [lia|]. destruct (c =? 41) eqn:?; [lia|]. destruct (c =? 123) eqn:?; [lia|].
  destruct (c =? 125) eqn:?; [lia|]. destruct (c =? 91) eqn:?; [lia|]. destruct (c =? 93) eqn:?; [lia|].
  now rewrite C, S.
Qed.
Lemma step_number k c w r cur stk : wf_number (c :: w) = true -> fol r ->
  lex_go (k) ((c :: w) ++ r) cur stk = match k with [] => None | _ :: k => lex_go k r (TLit (c :: w) :: cur) stk end.
Proof.
  intros W F. destruct k as [|x k]; [reflexivity|]. cbn [wf_number] in W. apply andb_prop in W as [C W].
  assert (NW : is_ws c = false /\ is_ident_start c = false /\ c <> 40 /\ c <> 41 /\ c <> 123 /\ c <> 125 /\ c <> 91 /\ c <> 93).
  { unfold is_ident_start, is_alpha, is_ws, is_digit in *. lia. }
  destruct NW as (E & E2 & N). assert (S := span_fol (c :: w) r W F). cbn [lex_go app]. cbn [app] in S. rewrite E.
  destruct (c =? 40) eqn:?; [lia|]. destruct (c =? 41) eqn:?; [lia|]. destruct (c =? 123) eqn:?; [lia|].
  destruct (c =? 125) eqn:?; [lia|]. destruct (c =? 91) eqn:?; [lia|]. destruct (c =? 93) eqn:?; [lia|].
  rewrite E2, C, S. destruct r as [|d r]; [reflexivity|]. destruct F as [->|[->| ->]]; reflexivity.
Qed.
Lemma span_until b r : forallb (fun x => negb (x =? 34)) b = true ->
  span (fun x => negb (x =? 34)) (b ++ 34 :: r) = (b, 34 :: r).
Proof.
  intros W. induction b as [|c b IH]; [reflexivity|]. cbn [forallb] in W. apply andb_prop in W as [C W].
  cbn [app span]. now rewrite C, IH.
Qed.
Lemma step_string k b r cur stk : forallb (fun x => negb (x =? 34)) b = true ->
  lex_go k ((34 :: b ++ [34]) ++ r) cur stk =
  match k with [] => None | _ :: k => lex_go k r (TLit (34 :: b ++ [34]) :: cur) stk end.
Proof.
  intros W. destruct k as [|x k]; [reflexivity|]. cbn [lex_go app]. rewrite <- app_assoc. cbn [app].
  rewrite span_until by auto. reflexivity.
Qed.
Lemma step_punct k p r cur stk : In p puncts -> fol r ->
  lex_go k (p ++ r) cur stk = match k with [] => None | _ :: k => lex_go k r (TPunct p :: cur) stk end.
Proof.
  intros H F. destruct k as [|x k]; [destruct (p ++ r); reflexivity|]. pose proof (op_fol p r H F) as L.
  destruct p as [|c p]. { exfalso. revert H. vm_compute. intuition discriminate. }
  assert (NW : is_ws c = false /\ is_ident_start c = false /\ is_digit c = false /\ c <> 34 /\
    c <> 40 /\ c <> 41 /\ c <> 123 /\ c <> 125 /\ c <> 91 /\ c <> 93).
  { clear L F. unfold puncts in H. cbn [operators single_puncts bs list_ascii_of_string List.map app In N_of_ascii] in H.
    repeat (destruct H as [H|H]; [injection H as <- _; vm_compute; repeat split; discriminate|]). destruct H. }
  destruct NW as (E & E2 & E3 & N). cbn [lex_go app]. cbn [app] in L. rewrite E.
  destruct (c =? 40) eqn:?; [lia|]. destruct (c =? 41) eqn:?; [lia|]. destruct (c =? 123) eqn:?; [lia|].
  destruct (c =? 125) eqn:?; [lia|]. destruct (c =? 91) eqn:?; [lia|]. destruct (c =? 93) eqn:?; [lia|].
  rewrite E2, E3. destruct (c =? 34) eqn:?; [lia|]. now rewrite L.
Qed.
Lemma step_space k r cur stk :
  lex_go k (32 :: r) cur stk = match k with [] => None | _ :: k => lex_go k r cur stk end.
Proof. now destruct k. Qed.

Lemma fol_close d r : fol (close_of d ++ r).
Proof. destruct d; cbn; auto. Qed.

Lemma lists_step ts :
  (forall t, In t ts -> forall fuel r cur stk, fol r -> (List.length (print_token t ++ r) < List.length fuel)%nat ->
    exists fuel', (List.length r < List.length fuel')%nat /\
      lex_go fuel (print_token t ++ r) cur stk = lex_go fuel' r (t :: cur) stk) ->
  forall fuel r cur stk, fol r -> (List.length (print_tokens ts ++ r) < List.length fuel)%nat ->
    exists fuel', (List.length r < List.length fuel')%nat /\
      lex_go fuel (print_tokens ts ++ r) cur stk = lex_go fuel' r (rev ts ++ cur) stk.
Proof.
  induction ts as [|t ts IH]; intros S fuel r cur stk F L.
  - exists fuel. auto.
  - destruct ts as [|u ts].
    + destruct (S t (or_introl eq_refl) fuel r cur stk F L) as (f' & L' & E). exists f'. auto.
    + change (print_tokens (t :: u :: ts)) with (print_token t ++ 32 :: print_tokens (u :: ts)) in *.
      rewrite <- app_assoc in *. cbn [app] in *.
      destruct (S t (or_introl eq_refl) fuel (32 :: print_tokens (u :: ts) ++ r) cur stk) as (f1 & L1 & ->); [now left|auto|].
      rewrite step_space. destruct f1 as [|x f1]; [cbn in L1; lia|].
      destruct (IH (fun v I => S v (or_intror I)) f1 r (t :: cur) stk F) as (f2 & L2 & ->).
      { cbn [List.length] in L1. cbn [app] in *. lia. }
      exists f2. split; [auto|]. f_equal. cbn [rev]. now rewrite <- !app_assoc.
Qed.
Lemma step_group fuel d s r cur stk ts :
  (List.length (open_of d ++ s ++ close_of d ++ r) < List.length fuel)%nat ->
  (forall fuel', (List.length (s ++ close_of d ++ r) < List.length fuel')%nat ->
    exists f2, (List.length (close_of d ++ r) < List.length f2)%nat /\
    lex_go fuel' (s ++ close_of d ++ r) [] ((d, cur) :: stk) = lex_go f2 (close_of d ++ r) (rev ts) ((d, cur) :: stk)) ->
  exists fuel', (List.length r < List.length fuel')%nat /\
    lex_go fuel (open_of d ++ s ++ close_of d ++ r) cur stk = lex_go fuel' r (TGroup d ts :: cur) stk.
Proof.
  intros L S. rewrite app_length in L.
  assert (O : exists f, (List.length (s ++ close_of d ++ r) < List.length f)%nat /\
    lex_go fuel (open_of d ++ s ++ close_of d ++ r) cur stk = lex_go f (s ++ close_of d ++ r) [] ((d, cur) :: stk)).
  { destruct d; cbn [open_of bs list_ascii_of_string List.map N_of_ascii app List.length] in *; destruct fuel as [|x fuel]; cbn [List.length] in L; try lia.
    - exists fuel. split; [lia|reflexivity].
    - destruct fuel as [|y fuel]; cbn [List.length] in L; try lia. exists fuel. split; [lia|reflexivity].
    - exists fuel. split; [lia|reflexivity]. }
  destruct O as (f & Lf & ->). destruct (S f Lf) as (f2 & L2 & ->).
  destruct d; cbn [close_of bs list_ascii_of_string List.map N_of_ascii app List.length] in *; destruct f2 as [|x f2]; cbn [List.length] in L2; try lia.
  - exists f2. split; [lia|]. simpl lex_go. now rewrite rev_involutive.
  - destruct f2 as [|y f2]; cbn [List.length] in L2; try lia. exists f2. split; [lia|].
    simpl lex_go. now rewrite rev_involutive.
  - exists f2. split; [lia|]. simpl lex_go. now rewrite rev_involutive.
Qed.

Fixpoint token_step (t : token) : wf_token t -> forall fuel r cur stk, fol r ->
  (List.length (print_token t ++ r) < List.length fuel)%nat ->
  exists fuel', (List.length r < List.length fuel')%nat /\
    lex_go fuel (print_token t ++ r) cur stk = lex_go fuel' r (t :: cur) stk.
Proof.
  destruct t as [w|p|w|d ts]; intros W fuel r cur stk F L.
  - cbn [print_token] in *. destruct w as [|c w]; [discriminate|]. destruct fuel as [|x fuel]; [cbn in L; lia|].
    exists fuel. split; [rewrite app_length in L; cbn in L; lia|]. now rewrite step_ident.
  - cbn [print_token] in *. destruct fuel as [|x fuel]; [cbn in L; lia|]. exists fuel.
    split; [|now rewrite step_punct]. rewrite app_length in L. cbn in L. destruct p; [|cbn in L; lia].
    exfalso. revert W. vm_compute. intuition discriminate.
  - cbn [print_token] in *. destruct fuel as [|x fuel]; [cbn in L; lia|]. exists fuel. destruct W as [W|(b & -> & W)].
    + destruct w as [|c w]; [discriminate|]. split; [rewrite app_length in L; cbn in L; lia|]. now rewrite step_number.
    + split; [rewrite app_length in L; cbn in L; lia|]. now rewrite step_string by now apply string_quotes.
  - rewrite print_group, <- !app_assoc in *. refine (step_group fuel d (print_tokens ts) r cur stk ts L _).
    intros fuel' L'. destruct (lists_step ts) with (fuel := fuel') (r := close_of d ++ r) (cur := @nil token) (stk := (d, cur) :: stk)
      as (f2 & L2 & E); auto using fol_close.
    + clear - token_step W. induction ts as [|t ts IH]; [easy|]. intros u [<-|I].
      * apply token_step. exact (proj1 W).
      * exact (IH (proj2 W) u I).
    + exists f2. rewrite app_nil_r in E. auto.
Qed.

Theorem lex_print ts : wf_tokens ts -> lex (print_tokens ts) = Some ts.
Proof.
  intros W. unfold lex. rewrite <- (app_nil_r (print_tokens ts)) at 2.
  destruct (lists_step ts) with (fuel := 0 :: print_tokens ts) (r := @nil N) (cur := @nil token) (stk := @nil (delim * list token))
    as (f & L & ->).
  - intros t I. apply token_step. unfold wf_tokens in W. rewrite Forall_forall in W. now apply W.
  - exact Logic.I.
  - rewrite app_nil_r. cbn. lia.
  - destruct f; [cbn in L; lia|]. cbn [lex_go]. rewrite app_nil_r. now rewrite rev_involutive.
Qed.
