(** * Which categories stop (for C131) *)
From Coq Require Import Lia.
From Verif Require Import Base LangId GenRs Operands Ast RustExpr Spec PluralRules Tables ApiProps Conformance CycleProps LangIdFacts Confused.
Open Scope N_scope.

Definition portugal : langid := mkLang (Some (bs "pt")) None (Some (bs "PT")) None.
(** a category, the largest integer of that category, and the locales for which this is so *)
Definition last_seen (t : pr_type) : list (category * N * list langid) :=
  match t with
  | CARDINAL =>
      [(ZERO, 0, map lang ["ar"; "ars"; "cy"; "ksh"; "kw"; "lag"]%string);
       (ONE, 1, portugal :: map lang ["af"; "ak"; "am"; "an"; "ar"; "ars"; "as"; "asa"; "ast"; "az"; "bem"; "bez"; "bg"; "bho"; "bn"; "brx"; "ca"; "ce";
          "cgg"; "chr"; "ckb"; "cs"; "cy"; "da"; "de"; "dv"; "ee"; "el"; "en"; "eo"; "es"; "et"; "eu"; "fa"; "ff"; "fi"; "fo";
          "fr"; "fur"; "fy"; "ga"; "gl"; "gsw"; "gu"; "guw"; "ha"; "haw"; "he"; "hi"; "hu"; "hy"; "ia"; "io"; "it"; "iu"; "iw";
          "jgo"; "ji"; "jmc"; "ka"; "kab"; "kaj"; "kcg"; "kk"; "kkj"; "kl"; "kn"; "ks"; "ksb"; "ksh"; "ku"; "kw"; "ky"; "lag";
          "lb"; "lg"; "ln"; "mas"; "mg"; "mgo"; "ml"; "mn"; "mo"; "mr"; "mt"; "nah"; "naq"; "nb"; "nd"; "ne"; "nl"; "nn"; "nnh";
          "no"; "nr"; "nso"; "ny"; "nyn"; "om"; "or"; "os"; "pa"; "pap"; "pcm"; "pl"; "ps"; "pt"; "rm"; "ro"; "rof"; "rwk";
          "saq"; "sat"; "sc"; "scn"; "sd"; "sdh"; "se"; "seh"; "shi"; "si"; "sk"; "sma"; "smi"; "smj"; "smn"; "sms"; "sn"; "so";
          "sq"; "ss"; "ssy"; "st"; "sv"; "sw"; "syr"; "ta"; "te"; "teo"; "ti"; "tig"; "tk"; "tn"; "tr"; "ts"; "ug"; "ur"; "uz";
          "ve"; "vo"; "vun"; "wa"; "wae"; "xh"; "xog"; "yi"; "zu"]%string);
       (ONE, 11, map lang ["gd"]%string);
       (ONE, 99, map lang ["tzm"]%string);
       (TWO, 2, map lang ["ar"; "ars"; "cy"; "ga"; "he"; "iu"; "iw"; "naq"; "sat"; "se"; "sma"; "smi"; "smj"; "smn"; "sms"]%string);
       (TWO, 12, map lang ["gd"]%string);
       (FEW, 3, map lang ["cy"]%string);
       (FEW, 4, map lang ["be"; "cs"; "sk"]%string);
       (FEW, 6, map lang ["ga"]%string);
       (FEW, 9, map lang ["lt"]%string);
       (FEW, 10, map lang ["ar"; "ars"; "mt"; "shi"]%string);
       (FEW, 19, map lang ["gd"; "mo"; "ro"]%string);
       (MANY, 6, map lang ["cy"]%string);
       (MANY, 10, map lang ["ga"]%string);
       (MANY, 19, map lang ["mt"]%string);
       (MANY, 99, map lang ["ar"; "ars"]%string)]
  | ORDINAL =>
      [(ZERO, 9, map lang ["cy"]%string);
       (ONE, 1, map lang ["cy"; "fil"; "fr"; "ga"; "gu"; "hi"; "hy"; "ka"; "lo"; "mo"; "mr"; "ms"; "ro"; "sq"; "tl"; "vi"]%string);
       (ONE, 3, map lang ["ca"]%string);
       (ONE, 4, map lang ["ne"]%string);
       (ONE, 5, map lang ["hu"]%string);
       (ONE, 9, map lang ["or"]%string);
       (ONE, 10, map lang ["as"; "bn"]%string);
       (ONE, 11, map lang ["gd"]%string);
       (ONE, 84, map lang ["kw"]%string);
       (TWO, 2, map lang ["ca"; "cy"]%string);
       (TWO, 3, map lang ["as"; "bn"; "gu"; "hi"; "mr"; "or"]%string);
       (TWO, 12, map lang ["gd"]%string);
       (FEW, 4, map lang ["as"; "bn"; "ca"; "cy"; "gu"; "hi"; "mr"; "or"]%string);
       (FEW, 13, map lang ["gd"]%string);
       (MANY, 6, map lang ["as"; "bn"; "cy"; "gu"; "hi"; "or"]%string);
       (MANY, 800, map lang ["it"; "sc"; "scn"]%string)]
  end.
(** all other categories are met in every run of so many integers from so far on *)
Definition from_run (t : pr_type) (id : langid) : N * N :=
  match t with
  | CARDINAL => if langid_eqb id (lang "kw") then (20001, 1000000) else if langid_eqb id (lang "br") then (100, 1000000) else (801, 100)
  | ORDINAL => if langid_eqb id (lang "az") then (801, 1000) else (801, 100)
  end.

(** ** The check *)
(** the arms of a category are false from [B] on *)
Definition arms_stop (b : body) (c : category) (B : N) : bool :=
  if cat_eqb (b_else b) c then false
  else forallb (fun a => if cat_eqb (snd a) c
     then (text_bound (fst a) <=? B) && negb (text_period (fst a) =? 0) && check_from (fun x => negb (int_expr (fst a) x)) (N.to_nat (text_period (fst a))) B
     else true) (b_arms b).
Definition not_here (b : body) (c : category) (lo hi : N) : bool :=
  check_from (fun x => negb (cat_eqb (int_select b x) c)) (N.to_nat (hi - lo)) lo.
Definition never (b : body) (c : category) : bool :=
  if body_period b =? 0 then false else not_here b c (body_bound b) (body_bound b + body_period b).
Definition recurs (b : body) (c : category) (B P : N) : bool :=
  if (body_bound b <=? B) && (P mod body_period b =? 0) && negb (body_period b =? 0) && negb (P =? 0)
  then anyb (fun y => if B <=? y then cat_eqb (int_select b y) c else false) (1000000 :: map (fun k => B + k) (map N.of_nat (seq 0 200)))
  else false.
Fixpoint last_of (l : list (category * N * list langid)) (id : langid) (c : category) : option N :=
  match l with
  | [] => None
  | (k, m, ids) :: r => if cat_eqb k c then if anyb (langid_eqb id) ids then Some m else last_of r id c else last_of r id c
  end.
Definition check_last (t : pr_type) (e : langid * body) : bool :=
  let '(id, b) := e in
  let '(B, P) := from_run t id in
  forallb (fun c =>
    match last_of (last_seen t) id c with
    | Some m => if cat_eqb (int_select b m) c then if not_here b c (m + 1) (body_bound b) then arms_stop b c (N.max (m + 1) (body_bound b)) else false else false
    | None => if recurs b c B P then true
        else if not_here b c 0 (body_bound b) then if arms_stop b c (body_bound b) then true else never b c else false
    end) [ZERO; ONE; TWO; FEW; MANY; OTHER].
Lemma last_checked t : forallb (check_last t) (prs t) = true.
Proof. destruct t; vm_compute; reflexivity. Qed.

Lemma int_arms_no l els c x : els <> c -> (forall e, In (e, c) l -> int_expr e x = false) -> int_arms l els x <> c.
Proof.
  intros N H. induction l as [|[e k] l IH]; cbn [int_arms]; [exact N|]. destruct (int_expr e x) eqn:E.
  - intros ->. rewrite (H e) in E by (now left). discriminate.
  - apply IH. intros e' I. apply H. now right.
Qed.
Lemma into_period B P x : P <> 0 -> B <= x -> exists y, B <= y /\ y < B + P /\ y mod P = x mod P.
Proof.
  intros P0 L. exists (B + (x - B) mod P). pose proof (N.mod_lt (x - B) P P0) as M. pose proof (N.div_mod (x - B) P P0) as D.
  split; [lia|]. split; [lia|]. replace x with (B + (x - B) mod P + ((x - B) / P) * P) at 2 by lia. symmetry. now apply N.mod_add.
Qed.
Lemma arms_stop_ok b c B x : body_compiles b = true -> arms_stop b c B = true -> B <= x -> int_select b x <> c.
Proof.
  unfold arms_stop, int_select. intros C H L. destruct (cat_eqb (b_else b) c) eqn:E; [discriminate|]. apply int_arms_no.
  - intros F. rewrite <- cat_eqb_eq in F. congruence.
  - intros e I. rewrite forallb_forall in H. specialize (H _ I). cbn [fst snd] in H.
    rewrite (proj2 (cat_eqb_eq c c) eq_refl) in H. apply andb_prop in H as [H K]. apply andb_prop in H as [H P0].
    apply N.leb_le in H. apply Bool.negb_true_iff, N.eqb_neq in P0. destruct (into_period B _ x P0 L) as (y & Y1 & Y2 & Y3).
    unfold body_compiles in C. rewrite forallb_forall in C. specialize (C _ I). cbn beta iota in C.
    rewrite <- (text_cycle e B _ y x C P0 H (N.divide_refl _) Y1 L Y3).
    assert (Z := check_from_ok _ _ _ K y Y1). rewrite N2Nat.id in Z. specialize (Z Y2). cbv beta in Z. now apply Bool.negb_true_iff in Z.
Qed.
Lemma not_here_ok b c lo hi x : not_here b c lo hi = true -> lo <= x -> x < hi -> int_select b x <> c.
Proof.
  unfold not_here. intros K L H E. assert (Z := check_from_ok _ _ _ K x L). rewrite N2Nat.id in Z. specialize (Z ltac:(lia)). cbv beta in Z.
  rewrite (proj2 (cat_eqb_eq _ _) E) in Z. discriminate.
Qed.
Lemma never_ok b c x : body_compiles b = true -> never b c = true -> body_bound b <= x -> int_select b x <> c.
Proof.
  unfold never. intros C H L. destruct (body_period b =? 0) eqn:P; [discriminate|]. apply N.eqb_neq in P.
  destruct (into_period (body_bound b) _ x P L) as (y & Y1 & Y2 & Y3).
  rewrite <- (body_cycle b (body_bound b) _ y x C P (N.le_refl _) (N.divide_refl _) Y1 L Y3). exact (not_here_ok _ _ _ _ y H Y1 Y2).
Qed.
Lemma into_window a P y : P <> 0 -> a <= y -> exists x, a <= x /\ x < a + P /\ x mod P = y mod P.
Proof. intros P0 L. destruct (into_period a P y P0 L) as (x & X). now exists x. Qed.
Lemma up_window a P y : P <> 0 -> y < a -> exists x, a <= x /\ x < a + P /\ x mod P = y mod P.
Proof.
  intros P0 L. destruct (into_period a P (y + a * P) P0) as (x & X1 & X2 & X3); [nia|].
  exists x. split; [exact X1|]. split; [exact X2|]. rewrite X3. now apply N.mod_add.
Qed.
Lemma recurs_ok b c B P a : body_compiles b = true -> recurs b c B P = true -> B <= a -> exists x, a <= x /\ x < a + P /\ int_select b x = c.
Proof.
  unfold recurs. intros C H L. destruct (_ && _) eqn:K; [|discriminate]. rewrite !andb_true_iff in K. destruct K as [[[K1 K2] K3] K4].
  apply N.leb_le in K1. apply N.eqb_eq in K2. apply Bool.negb_true_iff, N.eqb_neq in K3, K4.
  apply anyb_in in H as (y & _ & H). destruct (B <=? y) eqn:Y; [|discriminate]. apply N.leb_le in Y. apply cat_eqb_eq in H.
  destruct (N.le_gt_cases a y) as [A|A].
  - destruct (into_window a P y K4 A) as (x & X1 & X2 & X3). exists x. split; [exact X1|]. split; [exact X2|].
    rewrite <- H. apply (body_cycle b B P); auto; [now apply N.mod_divide|lia].
  - destruct (up_window a P y K4 A) as (x & X1 & X2 & X3). exists x. split; [exact X1|]. split; [exact X2|].
    rewrite <- H. apply (body_cycle b B P); auto; [now apply N.mod_divide|lia].
Qed.

Lemma last_of_in l id c m : last_of l id c = Some m -> exists ids, In (c, m, ids) l /\ In id ids.
Proof.
  induction l as [|[[k n] ids] l IH]; cbn [last_of]; [discriminate|]. destruct (cat_eqb k c) eqn:E.
  - apply cat_eqb_eq in E. subst k. destruct (anyb (langid_eqb id) ids) eqn:A.
    + intros [= ->]. apply anyb_in in A as (i & I & A). apply langid_eqb_eq in A. subst i. exists ids. split; [now left|exact I].
    + intros H. destruct (IH H) as (i & I & J). exists i. split; [now right|exact J].
  - intros H. destruct (IH H) as (i & I & J). exists i. split; [now right|exact J].
Qed.
(** no locale is listed twice for a category *)
Definition all_once (t : pr_type) : bool :=
  forallb (fun e => forallb (fun id => match last_of (last_seen t) id (fst (fst e)) with Some m => m =? snd (fst e) | None => false end) (snd e)) (last_seen t).
Lemma all_once_ok t : all_once t = true.
Proof. destruct t; vm_compute; reflexivity. Qed.
Lemma last_of_some t id c m ids : In (c, m, ids) (last_seen t) -> In id ids -> last_of (last_seen t) id c = Some m.
Proof.
  intros I J. pose proof (all_once_ok t) as A. unfold all_once in A. rewrite forallb_forall in A. specialize (A _ I). cbn [fst snd] in A.
  rewrite forallb_forall in A. specialize (A _ J). destruct (last_of _ id c) as [k|]; [|discriminate]. apply N.eqb_eq in A. now subst.
Qed.
Lemma checked_for how id t pr c : create how id t = Ok pr -> body_compiles (pr_function pr) = true /\
  match last_of (last_seen t) id c with
  | Some m => int_select (pr_function pr) m = c /\ forall x, int_select (pr_function pr) x = c -> x <= m
  | None => recurs (pr_function pr) c (fst (from_run t id)) (snd (from_run t id)) = true \/ forall x, int_select (pr_function pr) x <> c
  end.
Proof.
  intros C. apply C22_lemma in C as [I _]. pose proof (prs_compile t id _ I) as B. split; [exact B|].
  pose proof (last_checked t) as K. rewrite forallb_forall in K. specialize (K _ I). unfold check_last in K.
  destruct (from_run t id) as [S P]. cbn [fst snd]. rewrite forallb_forall in K. specialize (K c ltac:(destruct c; cbn [In]; tauto)).
  destruct (last_of (last_seen t) id c) as [m|].
  - destruct (cat_eqb _ c) eqn:E; [|discriminate]. apply cat_eqb_eq in E. split; [exact E|]. intros x X.
    destruct (not_here _ c _ _) eqn:H; [|discriminate]. destruct (N.le_gt_cases x m) as [L|L]; [exact L|]. exfalso.
    destruct (N.le_gt_cases (body_bound (pr_function pr)) x) as [G|G].
    + apply (arms_stop_ok _ _ _ x B K); [lia|exact X].
    + apply (not_here_ok _ _ _ _ x H); [lia|exact G|exact X].
  - destruct (recurs _ c S P) eqn:R; [now left|]. right. intros x X. destruct (not_here _ c _ _) eqn:H; [|discriminate].
    destruct (N.le_gt_cases (body_bound (pr_function pr)) x) as [G|G].
    + destruct (arms_stop _ c _) eqn:T; [exact (arms_stop_ok _ _ _ x B T G X)|exact (never_ok _ _ x B K G X)].
    + exact (not_here_ok _ _ _ _ x H (N.le_0_l _) G X).
Qed.
Definition small_last (t : pr_type) : bool := forallb (fun e => snd (fst e) <? 2 ^ 64) (last_seen t).
Lemma small_last_ok t : small_last t = true.
Proof. destruct t; vm_compute; reflexivity. Qed.
Lemma C131_lemma how id t pr w c m ids : create how id t = Ok pr -> In (c, m, ids) (last_seen t) -> In id ids ->
  select w pr (InUnsigned m) = Ok c /\ forall x, x < 2 ^ 64 -> select w pr (InUnsigned x) = Ok c -> x <= m.
Proof.
  intros C I J. destruct (checked_for how id t pr c C) as [_ K]. rewrite (last_of_some t id c m ids I J) in K. destruct K as [E K].
  assert (M : m < 2 ^ 64).
  { pose proof (small_last_ok t) as A. unfold small_last in A. rewrite forallb_forall in A. specialize (A _ I). now apply N.ltb_lt in A. }
  split; [rewrite (select_int how id t pr w m C M); now rewrite E|]. intros x X S. apply K.
  rewrite (select_int how id t pr w x C X) in S. now injection S.
Qed.
Lemma C131_again_lemma how id t pr w c x0 a : create how id t = Ok pr -> (forall m ids, In (c, m, ids) (last_seen t) -> ~ In id ids) ->
  x0 < 2 ^ 64 -> select w pr (InUnsigned x0) = Ok c -> fst (from_run t id) <= a -> a + snd (from_run t id) <= 2 ^ 64 ->
  exists x, a <= x /\ x < a + snd (from_run t id) /\ select w pr (InUnsigned x) = Ok c.
Proof.
  intros C F X S A L. destruct (checked_for how id t pr c C) as [B K]. destruct (last_of _ id c) as [m|] eqn:M.
  { apply last_of_in in M as (ids & I & J). destruct (F m ids I J). }
  destruct K as [K|K].
  - destruct (recurs_ok _ c _ _ a B K A) as (x & X1 & X2 & E). exists x. split; [exact X1|]. split; [exact X2|].
    rewrite (select_int how id t pr w x C) by exact (N.lt_le_trans _ _ _ X2 L). now rewrite E.
  - rewrite (select_int how id t pr w x0 C X) in S. destruct (K x0). now injection S.
Qed.
