(** * The rule parser against the grammar *)
From Coq Require Import Lia.
From Verif Require Import Base Nom Ast CldrParser Spec DigitFacts Grammar.
Open Scope N_scope.

Section Width.
Context {ptr : ptr_width}.

(** ** Soundness and termination of the combinators *)

(** what is consumed is in the language [g] *)
Definition sound {A} (p : parser A) (g : A -> bytes -> Prop) : Prop :=
  forall i rest a, p i = PO rest a -> exists s, i = s ++ rest /\ g a s.
Definition total {A} (p : parser A) : Prop := forall i, p i <> PFuel.

Lemma strip_some t : forall i r, strip t i = Some r -> i = t ++ r.
Proof.
  induction t as [|x t IH]; intros i r H; cbn [strip] in H; [injection H as ->; reflexivity|].
  destruct i as [|y i]; [discriminate|]. destruct (N.eqb_spec x y); [|discriminate]. subst.
  now rewrite (IH i r H).
Qed.
Lemma strip_app t r : strip t (t ++ r) = Some r.
Proof. induction t as [|x t IH]; [reflexivity|]. cbn [app strip]. now rewrite N.eqb_refl. Qed.

Lemma tag_sound t : sound (tag t) (fun a s => s = t).
Proof.
  intros i rest a H. unfold tag in H. destruct (strip t i) eqn:E; [|discriminate]. injection H as <- _.
  exists t. split; [now apply strip_some|reflexivity].
Qed.
Lemma tag_total t : total (tag t).
Proof. intros i. unfold tag. destruct (strip t i); discriminate. Qed.
Lemma tag_app t r : tag t (t ++ r) = PO r t.
Proof. unfold tag. now rewrite strip_app. Qed.

Lemma is_space_iff c : is_space c = true <-> c = 32 \/ c = 9.
Proof. unfold is_space. rewrite Bool.orb_true_iff, !N.eqb_eq. reflexivity. Qed.
Lemma blanks_forallb s : blanks s <-> forallb is_space s = true.
Proof.
  unfold blanks. rewrite forallb_forall, Forall_forall. split; intros H x I; apply is_space_iff; auto.
Qed.

Lemma space0_sound : sound space0 (fun a s => blanks s).
Proof.
  intros i rest a H. unfold space0 in H. pose proof (span_spec is_space i) as S.
  destruct (span is_space i) as [x y]. destruct S as (-> & S & _). injection H as <- _.
  exists x. split; [reflexivity|]. now apply blanks_forallb.
Qed.
Lemma space0_total : total space0.
Proof. intros i. unfold space0. destruct (span is_space i). discriminate. Qed.
Lemma space1_sound : sound space1 (fun a s => blanks1 s).
Proof.
  intros i rest a H. unfold space1 in H. pose proof (span_spec is_space i) as S.
  destruct (span is_space i) as [x y]. destruct S as (-> & S & _). destruct x as [|c x]; [discriminate|].
  injection H as <- _. exists (c :: x). split; [reflexivity|]. split; [now apply blanks_forallb|discriminate].
Qed.
Lemma space1_total : total space1.
Proof. intros i. unfold space1. destruct (span is_space i) as [[|? ?] ?]; discriminate. Qed.
Lemma digit1_sound : sound digit1 (fun a s => a = s /\ digits s /\ s <> []).
Proof.
  intros i rest a H. unfold digit1 in H. pose proof (span_spec is_digit i) as S.
  destruct (span is_digit i) as [x y]. destruct S as (-> & S & _). destruct x as [|c x]; [discriminate|].
  injection H as <- <-. exists (c :: x). split; [reflexivity|]. split; [reflexivity|].
  split; [now apply digits_forallb|discriminate].
Qed.
Lemma digit1_total : total digit1.
Proof. intros i. unfold digit1. destruct (span is_digit i) as [[|? ?] ?]; discriminate. Qed.

Lemma pmap_sound {A B} (f : A -> B) p g : sound p g -> sound (pmap f p) (fun b s => exists a, b = f a /\ g a s).
Proof.
  intros P i rest b H. unfold pmap, pbind in H. destruct (p i) eqn:E; try discriminate. injection H as <- <-.
  apply P in E as (s & -> & G). eauto.
Qed.
Lemma pmap_total {A B} (f : A -> B) p : total p -> total (pmap f p).
Proof. intros P i. unfold pmap, pbind. specialize (P i). destruct (p i); congruence. Qed.
Lemma pmap_res_sound {A B} (f : A -> option B) p g : sound p g ->
  sound (pmap_res f p) (fun b s => exists a, f a = Some b /\ g a s).
Proof.
  intros P i rest b H. unfold pmap_res, pbind in H. destruct (p i) eqn:E; try discriminate.
  destruct (f a) eqn:F; [|discriminate]. injection H as <- <-. apply P in E as (s & -> & G). eauto.
Qed.
Lemma pmap_res_total {A B} (f : A -> option B) p : total p -> total (pmap_res f p).
Proof. intros P i. unfold pmap_res, pbind. specialize (P i). destruct (p i); try congruence. destruct (f a); congruence. Qed.
Lemma popt_sound {A} (p : parser A) g : sound p g ->
  sound (popt p) (fun o s => match o with Some a => g a s | None => s = [] end).
Proof.
  intros P i rest o H. unfold popt in H. destruct (p i) eqn:E; try discriminate; injection H as <- <-.
  - apply P in E as (s & -> & G). eauto.
  - exists []. auto.
Qed.
Lemma popt_total {A} (p : parser A) : total p -> total (popt p).
Proof. intros P i. unfold popt. specialize (P i). destruct (p i); congruence. Qed.
Lemma pseq_sound {A B} (p : parser A) (q : parser B) g h : sound p g -> sound q h ->
  sound (pseq p q) (fun ab s => exists x y, s = x ++ y /\ g (fst ab) x /\ h (snd ab) y).
Proof.
  intros P Q i rest [a b] H. unfold pseq, pbind in H. destruct (p i) eqn:E; try discriminate.
  destruct (q rest0) eqn:F; try discriminate. injection H as <- <- <-.
  apply P in E as (s & -> & G). apply Q in F as (t & -> & K).
  exists (s ++ t). split; [now rewrite app_assoc|]. exists s, t. auto.
Qed.
Lemma pseq_total {A B} (p : parser A) (q : parser B) : total p -> total q -> total (pseq p q).
Proof.
  intros P Q i. unfold pseq, pbind. specialize (P i). destruct (p i); try congruence.
  specialize (Q rest). destruct (q rest); congruence.
Qed.
Lemma preceded_sound {A B} (p : parser A) (q : parser B) g h : sound p g -> sound q h ->
  sound (preceded p q) (fun b s => exists a x y, s = x ++ y /\ g a x /\ h b y).
Proof.
  intros P Q i rest b H. unfold preceded, pbind in H. destruct (p i) eqn:E; try discriminate.
  apply P in E as (s & -> & G). apply Q in H as (t & -> & K).
  exists (s ++ t). split; [now rewrite app_assoc|]. eauto 6.
Qed.
Lemma preceded_total {A B} (p : parser A) (q : parser B) : total p -> total q -> total (preceded p q).
Proof. intros P Q i. unfold preceded, pbind. specialize (P i). destruct (p i); try congruence; apply Q. Qed.
Lemma palt_sound {A} (p q : parser A) g h : sound p g -> sound q h -> sound (palt p q) (fun a s => g a s \/ h a s).
Proof.
  intros P Q i rest a H. unfold palt in H. destruct (p i) eqn:E.
  - injection H as <- <-. apply P in E as (s & -> & G). eauto.
  - apply Q in H as (s & -> & G). eauto.
  - discriminate.
Qed.
Lemma palt_total {A} (p q : parser A) : total p -> total q -> total (palt p q).
Proof. intros P Q i. unfold palt. specialize (P i). destruct (p i); try congruence; apply Q. Qed.

Lemma sound_weaken {A} (p : parser A) (g h : A -> bytes -> Prop) :
  sound p g -> (forall a s, g a s -> h a s) -> sound p h.
Proof. intros P W i rest a H. apply P in H as (s & -> & G). eauto. Qed.

Lemma app_neq (a b : bytes) : a <> [] -> b <> a ++ b.
Proof. intros H E. apply (f_equal (@List.length N)) in E. rewrite app_length in E. destruct a; [easy|cbn in E; lia]. Qed.

(** lists *)
Section Lists.
Context {A B : Type} (psep : parser B) (f : parser A) (sep : bytes -> Prop) (g : A -> bytes -> Prop).
Context (Ssep : sound psep (fun _ s => sep s)) (Sf : sound f g) (Tsep : total psep) (Tf : total f).

Lemma sep_loop_total fuel : forall i acc, (List.length i < fuel)%nat -> sep_loop fuel psep f i acc <> PFuel.
Proof.
  induction fuel as [|fuel IH]; intros i acc L; [lia|]. cbn [sep_loop].
  pose proof (Tsep i). destruct (psep i) as [i1 x| |] eqn:E1; try congruence.
  destruct (bytes_eqb i1 i); [discriminate|].
  pose proof (Tf i1). destruct (f i1) as [i2 a| |] eqn:E2; try congruence.
  destruct (bytes_eqb i2 i) eqn:D; [discriminate|]. apply bytes_eqb_neq in D.
  apply IH. apply Ssep in E1 as (s & -> & _). apply Sf in E2 as (t & -> & _).
  rewrite !app_length in L. destruct s as [|c s]; [destruct t as [|c t]; [elim D; reflexivity|]|]; cbn [List.length] in L; lia.
Qed.
Lemma sep_loop_sound fuel : forall i acc rest l, sep_loop fuel psep f i acc = PO rest l ->
  exists l', l = rev acc ++ l' /\
    ((l' = [] /\ rest = i) \/ exists p t, sep p /\ sep_list sep g l' t /\ i = p ++ t ++ rest).
Proof.
  induction fuel as [|fuel IH]; intros i acc rest l H; [discriminate|]. cbn [sep_loop] in H.
  destruct (psep i) as [i1 x| |] eqn:E1; try discriminate.
  - destruct (bytes_eqb i1 i); [discriminate|].
    destruct (f i1) as [i2 a| |] eqn:E2; try discriminate.
    + destruct (bytes_eqb i2 i); [discriminate|]. apply IH in H as (l' & -> & K).
      apply Ssep in E1 as (s & -> & P). apply Sf in E2 as (t & -> & G).
      exists (a :: l'). split; [cbn [rev]; now rewrite <- app_assoc|]. right.
      destruct K as [[-> ->]|(p' & t' & P' & L' & ->)].
      * exists s, t. split; [auto|]. split; [now constructor|reflexivity].
      * exists s, (t ++ p' ++ t'). split; [auto|]. split; [now constructor|]. now rewrite !app_assoc.
    + injection H as <- <-. exists []. split; [now rewrite app_nil_r|]. now left.
  - injection H as <- <-. exists []. split; [now rewrite app_nil_r|]. now left.
Qed.

Lemma separated_nonempty_list_total : total (separated_nonempty_list psep f).
Proof.
  intros i. unfold separated_nonempty_list. pose proof (Tf i). destruct (f i) as [i1 a| |] eqn:E; try congruence.
  destruct (bytes_eqb i1 i); [discriminate|]. apply sep_loop_total. apply Sf in E as (s & -> & _). rewrite app_length. lia.
Qed.
Lemma separated_list_total : total (separated_list psep f).
Proof.
  intros i. unfold separated_list. pose proof (Tf i). destruct (f i) as [i1 a| |] eqn:E; try congruence.
  destruct (bytes_eqb i1 i); [discriminate|]. apply sep_loop_total. apply Sf in E as (s & -> & _). rewrite app_length. lia.
Qed.
Lemma separated_nonempty_list_sound : sound (separated_nonempty_list psep f) (sep_list sep g).
Proof.
  intros i rest l H. unfold separated_nonempty_list in H. destruct (f i) as [i1 a| |] eqn:E; try discriminate.
  destruct (bytes_eqb i1 i); [discriminate|]. apply Sf in E as (s & -> & G).
  apply sep_loop_sound in H as (l' & -> & [[-> ->]|(p & t & P & L & ->)]); cbn [rev app].
  - exists s. split; [reflexivity|]. now constructor.
  - exists (s ++ p ++ t). split; [now rewrite !app_assoc|]. now constructor.
Qed.
Lemma separated_list_sound :
  sound (separated_list psep f) (fun l s => sep_list sep g l s \/ (l = [] /\ s = [])).
Proof.
  intros i rest l H. unfold separated_list in H. destruct (f i) as [i1 a| |] eqn:E; try discriminate.
  - destruct (separated_nonempty_list_sound i rest l) as (s & -> & G).
    + unfold separated_nonempty_list. now rewrite E.
    + eauto.
  - injection H as <- <-. exists []. auto.
Qed.

(** completeness *)
Context (FI : bytes -> Prop).
Context (Csep : forall q a s rest, sep q -> g a s -> exists x, psep (q ++ s ++ rest) = PO (s ++ rest) x).
Context (Cf : forall a s rest, g a s -> FI rest -> f (s ++ rest) = PO rest a).
Context (Ne : forall a s, g a s -> s <> []).
Context (Fol : forall q a s rest, sep q -> g a s -> FI (q ++ s ++ rest)).
Definition stops (rest : bytes) : Prop :=
  psep rest = PE \/ exists r1 x, psep rest = PO r1 x /\ r1 <> rest /\ f r1 = PE.

(** if a separator is empty, the loop fails *)
Context (NeS : forall q, sep q -> q <> []).

Lemma sep_loop_complete l t : sep_list sep g l t -> forall q rest fuel acc,
  sep q -> FI rest -> stops rest -> (List.length (q ++ t ++ rest) < fuel)%nat ->
  sep_loop fuel psep f (q ++ t ++ rest) acc = PO rest (rev acc ++ l).
Proof.
  assert (Stop : forall fuel rest acc, stops rest -> sep_loop (S fuel) psep f rest acc = PO rest (rev acc)).
  { intros fuel rest acc [E|(r1 & x & E & N1 & E2)]; cbn [sep_loop]; rewrite E; [reflexivity|].
    apply bytes_eqb_neq in N1. now rewrite N1, E2. }
  induction 1 as [a s G|a s p l t G P L IH]; intros q rest fuel acc Q F St Len.
  - destruct fuel as [|fuel]; [lia|]. cbn [sep_loop].
    destruct (Csep q a s rest Q G) as (x & E). rewrite E, (Cf a s rest G F).
    assert (N1 : bytes_eqb (s ++ rest) (q ++ s ++ rest) = false) by (apply bytes_eqb_neq, app_neq; auto).
    assert (N2 : bytes_eqb rest (q ++ s ++ rest) = false).
    { apply bytes_eqb_neq. rewrite app_assoc. apply app_neq. intros K. apply app_eq_nil in K as [K _]. now apply (NeS q). }
    rewrite N1, N2. rewrite !app_length in Len. pose proof (Ne a s G). destruct s as [|c s]; [easy|]. cbn [List.length] in Len.
    destruct fuel as [|fuel]; [lia|]. rewrite Stop by exact St. cbn [rev]. reflexivity.
  - destruct fuel as [|fuel]; [lia|]. cbn [sep_loop].
    assert (GI : exists a' s' t', g a' s' /\ t = s' ++ t') by (destruct L; eexists _, _, _; split; eauto; now rewrite app_nil_r).
    destruct GI as (a' & s' & t' & G' & ->).
    replace (q ++ (s ++ p ++ s' ++ t') ++ rest) with (q ++ s ++ (p ++ (s' ++ t') ++ rest)) in * by now rewrite !app_assoc.
    destruct (Csep q a s (p ++ (s' ++ t') ++ rest) Q G) as (x & E). rewrite E.
    rewrite (Cf a s _ G) by (rewrite <- app_assoc; eapply Fol; eauto).
    assert (N1 : bytes_eqb (s ++ p ++ (s' ++ t') ++ rest) (q ++ s ++ p ++ (s' ++ t') ++ rest) = false) by (apply bytes_eqb_neq, app_neq; auto).
    assert (N2 : bytes_eqb (p ++ (s' ++ t') ++ rest) (q ++ s ++ p ++ (s' ++ t') ++ rest) = false).
    { apply bytes_eqb_neq. rewrite (app_assoc q). apply app_neq. intros K. apply app_eq_nil in K as [K _]. now apply (NeS q). }
    rewrite N1, N2, IH; auto.
    + cbn [rev]. now rewrite <- app_assoc.
    + rewrite !app_length in *. pose proof (NeS q Q). destruct q; [easy|]. cbn [List.length] in Len. lia.
Qed.
Lemma separated_complete l t rest : sep_list sep g l t -> FI rest -> stops rest ->
  separated_nonempty_list psep f (t ++ rest) = PO rest l /\ separated_list psep f (t ++ rest) = PO rest l.
Proof.
  intros L F St. enough (H : separated_nonempty_list psep f (t ++ rest) = PO rest l).
  { split; [exact H|]. unfold separated_list, separated_nonempty_list in *. destruct (f (t ++ rest)); [exact H|discriminate|discriminate]. }
  unfold separated_nonempty_list. destruct L as [a s G|a s p l t G P L].
  - rewrite (Cf a s rest G F). pose proof (Ne a s G).
    assert (N1 : bytes_eqb rest (s ++ rest) = false) by (apply bytes_eqb_neq, app_neq; auto). rewrite N1.
    cbn [sep_loop]. destruct St as [E|(r1 & x & E & N2 & E2)]; rewrite E; [reflexivity|].
    apply bytes_eqb_neq in N2. now rewrite N2, E2.
  - assert (GI : exists a' s' t', g a' s' /\ t = s' ++ t') by (destruct L; eexists _, _, _; split; eauto; now rewrite app_nil_r).
    destruct GI as (a' & s' & t' & G' & Et).
    replace ((s ++ p ++ t) ++ rest) with (s ++ (p ++ t ++ rest)) by now rewrite !app_assoc.
    rewrite (Cf a s _ G) by (rewrite Et, <- app_assoc; eapply Fol; eauto).
    pose proof (Ne a s G).
    assert (N1 : bytes_eqb (p ++ t ++ rest) (s ++ p ++ t ++ rest) = false) by (apply bytes_eqb_neq, app_neq; auto). rewrite N1.
    rewrite (sep_loop_complete l t L p rest); auto.
    rewrite (app_length s). lia.
Qed.
End Lists.

(** ** Soundness of each parser of parser.rs *)
Lemma value_sound : sound p_value g_value.
Proof.
  unfold p_value. eapply sound_weaken; [apply pmap_res_sound, digit1_sound|].
  intros k s (a & U & -> & D & N). apply usize_from_str_some in U as (d & [->|E] & D1 & D2 & D3 & D4).
  - repeat split; auto. now subst k.
  - subst s. apply digits_cons in D as [D _]. unfold digit_char in D. lia.
Qed.
Lemma value_total : total p_value.
Proof. apply pmap_res_total, digit1_total. Qed.

Lemma separated_pair_sound {A B C} (p : parser A) (m : parser B) (q : parser C) g k h :
  sound p g -> sound m k -> sound q h ->
  sound (separated_pair p m q) (fun ab s => exists b x y z, s = x ++ y ++ z /\ g (fst ab) x /\ k b y /\ h (snd ab) z).
Proof.
  intros P M Q i rest [a c] H. unfold separated_pair, pbind in H. destruct (p i) eqn:E; try discriminate.
  destruct (m rest0) eqn:F; try discriminate. destruct (q rest1) eqn:K; try discriminate. injection H as <- <- <-.
  apply P in E as (s & -> & G1). apply M in F as (t & -> & G2). apply Q in K as (u & -> & G3).
  exists (s ++ t ++ u). split; [now rewrite !app_assoc|]. exists a1, s, t, u. auto.
Qed.
Lemma separated_pair_total {A B C} (p : parser A) (m : parser B) (q : parser C) :
  total p -> total m -> total q -> total (separated_pair p m q).
Proof.
  intros P M Q i. unfold separated_pair, pbind. specialize (P i). destruct (p i); try congruence.
  specialize (M rest). destruct (m rest); try congruence. specialize (Q rest0). destruct (q rest0); congruence.
Qed.

Lemma item_sound : sound p_range_list_item g_item.
Proof.
  unfold p_range_list_item, p_range. eapply sound_weaken.
  - apply palt_sound; apply pmap_sound; [apply pmap_sound, separated_pair_sound; [apply value_sound|apply tag_sound|apply value_sound]|apply value_sound].
  - intros a s [(r & -> & [lo up] & -> & b & x & y & z & -> & G1 & -> & G2)|(k & -> & G)]; now constructor.
Qed.
Lemma item_total : total p_range_list_item.
Proof.
  unfold p_range_list_item, p_range. auto using palt_total, pmap_total, separated_pair_total, value_total, tag_total.
Qed.

Lemma comma_sound : sound p_comma (fun _ s => comma s).
Proof.
  unfold p_comma. eapply sound_weaken.
  - apply pseq_sound; [apply space0_sound|apply pseq_sound; [apply tag_sound|apply space0_sound]].
  - intros a s (x & y & -> & B1 & x' & y' & -> & -> & B2). exists x, y'. auto.
Qed.
Lemma comma_total : total p_comma.
Proof. unfold p_comma. auto using pseq_total, space0_total, tag_total. Qed.
Lemma word_sound w : sound (p_word w) (fun _ s => word w s).
Proof.
  unfold p_word. eapply sound_weaken.
  - apply pseq_sound; [apply space1_sound|apply pseq_sound; [apply tag_sound|apply space1_sound]].
  - intros a s (x & y & -> & B1 & x' & y' & -> & -> & B2). exists x, y'. auto.
Qed.
Lemma word_total w : total (p_word w).
Proof. unfold p_word. auto using pseq_total, space1_total, tag_total. Qed.

Lemma list_sound : sound p_range_list (g_list_opt false).
Proof.
  unfold p_range_list. eapply sound_weaken.
  - apply separated_list_sound; [apply comma_sound|apply item_sound].
  - intros l s [H|H]; [now left|right; tauto].
Qed.
Lemma list_total : total p_range_list.
Proof. unfold p_range_list. eapply separated_list_total; [apply comma_sound|apply item_sound|apply comma_total|apply item_total]. Qed.

Lemma operand_sound : sound p_operand (fun o s => s = operand_text o).
Proof.
  intros i rest o H. unfold p_operand, one_of, pbind in H. destruct i as [|c i]; [discriminate|].
  destruct (existsb _ _) in H; [|discriminate]. unfold operand_of_char in H.
  destruct (c =? 110) eqn:E1; [|destruct (c =? 105) eqn:E2; [|destruct (c =? 118) eqn:E3;
    [|destruct (c =? 119) eqn:E4; [|destruct (c =? 102) eqn:E5; [|destruct (c =? 116) eqn:E6; [|discriminate]]]]]];
  injection H as <- <-; exists [c];
  match goal with E : (c =? _) = true |- _ => apply N.eqb_eq in E; subst c end; split; reflexivity.
Qed.
Lemma operand_total : total p_operand.
Proof.
  intros i. unfold p_operand, one_of, pbind. destruct i as [|c i]; [discriminate|].
  destruct (existsb (fun x => x =? c) (bs "nivwft")) eqn:X; [|discriminate].
  unfold operand_of_char.
  destruct (c =? 110) eqn:E1; [discriminate|]. destruct (c =? 105) eqn:E2; [discriminate|].
  destruct (c =? 118) eqn:E3; [discriminate|]. destruct (c =? 119) eqn:E4; [discriminate|].
  destruct (c =? 102) eqn:E5; [discriminate|]. destruct (c =? 116) eqn:E6; [discriminate|].
  exfalso. apply existsb_exists in X as (x & I & X). apply N.eqb_eq in X. subst x.
  repeat (destruct I as [I|I]; [subst c; discriminate|]). destruct I.
Qed.

Lemma expression_sound : sound p_expression g_expr.
Proof.
  unfold p_expression, p_mod_expression. eapply sound_weaken.
  - apply pmap_sound, pseq_sound; [apply operand_sound|].
    apply popt_sound, preceded_sound; [|apply value_sound].
    apply pseq_sound; [apply space0_sound|]. apply pseq_sound; [|apply space1_sound].
    apply palt_sound; apply tag_sound.
  - intros e s ([o m] & -> & x & y & -> & -> & M). cbn [fst snd] in *. destruct m as [k|].
    + destruct M as (a & u & v & -> & (b1 & u' & -> & B1 & w & b2 & -> & W & B2) & G).
      rewrite <- !app_assoc. now constructor.
    + subst y. rewrite app_nil_r. constructor.
Qed.
Lemma expression_total : total p_expression.
Proof.
  unfold p_expression, p_mod_expression.
  auto 10 using pmap_total, pseq_total, operand_total, popt_total, preceded_total, space0_total, space1_total, palt_total, tag_total, value_total.
Qed.

(** the operator with the blanks that follow it *)
Lemma operator_sound : sound p_relation_operator
  (fun o s => g_op o s /\ o <> OpIs \/ o = OpIs /\ exists b, blanks1 b /\ s = bs "is" ++ b).
Proof.
  unfold p_relation_operator. eapply sound_weaken.
  - repeat apply palt_sound; apply pmap_sound; [apply tag_sound|apply tag_sound| |apply tag_sound| |apply tag_sound].
    + apply pseq_sound; [apply tag_sound|]. apply pseq_sound; [apply space1_sound|]. apply popt_sound, tag_sound.
    + apply pseq_sound; [apply tag_sound|]. apply pseq_sound; [apply space1_sound|].
      apply palt_sound; apply pmap_sound, tag_sound.
  - intros o s [(a & -> & ->)|[(a & -> & ->)|[(a & -> & H)|[(a & -> & ->)|[(a & -> & H)|(a & -> & ->)]]]]].
    + left. split; [constructor|discriminate].
    + left. split; [constructor|discriminate].
    + destruct a as [u [v n]]. destruct H as (x & y & -> & -> & b & z & -> & B & N). cbn [fst snd] in *.
      destruct n as [n|].
      * subst z. left. split; [now constructor|discriminate].
      * subst z. rewrite app_nil_r. right. split; [reflexivity|]. exists b. auto.
    + left. split; [constructor|discriminate].
    + destruct a as [u [v o]]. destruct H as (x & y & -> & -> & b & z & -> & B & N). cbn [fst snd] in *.
      destruct N as [(a & -> & ->)|(a & -> & ->)]; left; (split; [now constructor|discriminate]).
    + left. split; [constructor|discriminate].
Qed.
Lemma operator_total : total p_relation_operator.
Proof.
  unfold p_relation_operator.
  auto 20 using pmap_total, pseq_total, popt_total, preceded_total, space0_total, space1_total, palt_total, tag_total.
Qed.

Lemma blanks_app a b : blanks a -> blanks b -> blanks (a ++ b).
Proof. intros. apply Forall_app. auto. Qed.

Lemma relation_sound : sound p_relation (g_relation false).
Proof.
  unfold p_relation. eapply sound_weaken.
  - apply pmap_sound, pseq_sound; [apply expression_sound|]. apply pseq_sound; [apply space0_sound|].
    apply pseq_sound; [apply operator_sound|]. apply pseq_sound; [apply space0_sound|apply list_sound].
  - intros r s ([e [u [o [v l]]]] & -> & es & y & -> & E & b1 & y1 & -> & B1 & os & y2 & -> & O & b2 & ls & -> & B2 & L).
    cbn [fst snd] in *. destruct O as [[O N]|(-> & b & B & ->)].
    + constructor; auto; congruence.
    + replace ((bs "is" ++ b) ++ b2 ++ ls) with (bs "is" ++ (b ++ b2) ++ ls) by now rewrite !app_assoc.
      constructor; auto.
      * constructor.
      * apply blanks_app; [apply B|exact B2].
      * intros _ K. apply app_eq_nil in K as [K _]. now apply B.
Qed.
Lemma relation_total : total p_relation.
Proof.
  unfold p_relation.
  auto 20 using pmap_total, pseq_total, expression_total, operator_total, space0_total, list_total.
Qed.
Lemma and_sound : sound p_and_condition (g_and false).
Proof. apply separated_nonempty_list_sound; [apply word_sound|apply relation_sound]. Qed.
Lemma and_total : total p_and_condition.
Proof. eapply separated_nonempty_list_total; [apply word_sound|apply relation_sound|apply word_total|apply relation_total]. Qed.

Lemma decimal_sound : sound p_decimal_value g_decimal.
Proof.
  unfold p_decimal_value. eapply sound_weaken.
  - apply pmap_sound, pseq_sound; [apply value_sound|]. apply popt_sound, preceded_sound; [apply tag_sound|apply value_sound].
  - intros d s ([k f] & -> & x & y & -> & G & H). cbn [fst snd] in *. destruct f as [f|].
    + destruct H as (a & u & v & -> & -> & V). now constructor.
    + subst y. rewrite app_nil_r. now constructor.
Qed.
Lemma decimal_total : total p_decimal_value.
Proof. unfold p_decimal_value. auto 10 using pmap_total, pseq_total, value_total, popt_total, preceded_total, tag_total. Qed.
Lemma sample_range_sound : sound p_sample_range g_sample_range.
Proof.
  unfold p_sample_range. eapply sound_weaken.
  - apply pmap_sound, pseq_sound; [apply decimal_sound|]. apply popt_sound, preceded_sound; [|apply decimal_sound].
    apply pseq_sound; [apply space0_sound|]. apply pseq_sound; [apply tag_sound|apply space0_sound].
  - intros d s ([k f] & -> & x & y & -> & G & H). cbn [fst snd] in *. destruct f as [f|].
    + destruct H as (a & u & v & -> & (b1 & u' & -> & B1 & w & b2 & -> & -> & B2) & V).
      rewrite <- !app_assoc. now constructor.
    + subst y. rewrite app_nil_r. now constructor.
Qed.
Lemma sample_range_total : total p_sample_range.
Proof. unfold p_sample_range. auto 10 using pmap_total, pseq_total, decimal_total, popt_total, preceded_total, tag_total, space0_total. Qed.
Lemma sample_list_sound : sound p_sample_list g_sample_list.
Proof.
  unfold p_sample_list. eapply sound_weaken.
  - apply pmap_sound, pseq_sound.
    + apply separated_nonempty_list_sound; [apply comma_sound|apply sample_range_sound].
    + apply popt_sound, preceded_sound; [apply comma_sound|]. apply palt_sound; apply tag_sound.
  - intros d s ([l e] & -> & x & y & -> & G & H). cbn [fst snd] in *. destruct e as [e|].
    + destruct H as (a & u & v & -> & C & W). now constructor.
    + subst y. rewrite app_nil_r. now constructor.
Qed.
Lemma sample_list_total : total p_sample_list.
Proof.
  unfold p_sample_list. apply pmap_total, pseq_total.
  - eapply separated_nonempty_list_total; [apply comma_sound|apply sample_range_sound|apply comma_total|apply sample_range_total].
  - auto 10 using popt_total, preceded_total, tag_total, comma_total, palt_total.
Qed.
Lemma samples_sound : sound p_samples g_samples.
Proof.
  unfold p_samples. eapply sound_weaken.
  - apply pmap_sound, pseq_sound; apply popt_sound, preceded_sound; [apply word_sound|apply sample_list_sound|apply word_sound|apply sample_list_sound].
  - intros sa s ([i d] & -> & x & y & -> & I & D). cbn [fst snd] in *.
    change (match i, d with None, None => None | _, _ => Some (mkSamples i d) end) with (make_samples i d).
    constructor.
    + destruct i as [i|]; [destruct I as (a & u & v & -> & W & G); now constructor|subst; constructor].
    + destruct d as [d|]; [destruct D as (a & u & v & -> & W & G); now constructor|subst; constructor].
Qed.
Lemma samples_total : total p_samples.
Proof. unfold p_samples. auto 10 using pmap_total, pseq_total, popt_total, preceded_total, word_total, sample_list_total. Qed.

Lemma condition_total : total p_condition.
Proof.
  intros i. unfold p_condition. destruct (trim i) as [|c t]; [discriminate|]. destruct (c =? 64); [discriminate|].
  apply separated_nonempty_list_total with (word (bs "or")) (g_and false); [apply word_sound|apply and_sound|apply word_total|apply and_total].
Qed.
Lemma condition_sound i rest c : p_condition i = PO rest c ->
  (c = [] /\ rest = []) \/ exists s, i = s ++ rest /\ g_condition false c s.
Proof.
  unfold p_condition. intros H. destruct (trim i) as [|x t]; [injection H as <- <-; auto|].
  destruct (x =? 64); [injection H as <- <-; auto|]. right. revert H.
  apply separated_nonempty_list_sound; [apply word_sound|apply and_sound].
Qed.
Lemma rule_total : total p_rule.
Proof. unfold p_rule. auto using pmap_total, pseq_total, condition_total, samples_total. Qed.
End Width.
