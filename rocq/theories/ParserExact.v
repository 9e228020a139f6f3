(** * Exactly what the two rule parsers accept *)
From Coq Require Import Lia.
From Verif Require Import Base Nom Ast CldrParser Spec DigitFacts Grammar ParserFacts ParserComplete ParserProps.
Open Scope N_scope.

Section Width.
Context {ptr : ptr_width}.

(** ** Digits kept together *)
Lemma whole_nil_r t : whole t [].
Proof. intros x c d y _ E. discriminate. Qed.
Lemma whole_no_digit t rest : no_digit rest -> whole t rest.
Proof. intros N x c d y _ -> [_ D]. apply is_digit_iff in D. specialize (N d y eq_refl). congruence. Qed.
Lemma whole_app a t rest : t <> [] -> (whole (a ++ t) rest <-> whole t rest).
Proof.
  intros NE. destruct (exists_last NE) as (x & c & ->). split; intros W x' c' d y E ->.
  - apply app_inj_tail in E as [-> ->]. apply (W (a ++ x') c' d y); [now rewrite app_assoc|reflexivity].
  - rewrite app_assoc in E. apply app_inj_tail in E as [_ ->]. now apply (W x c' d y).
Qed.
Lemma whole_digits s rest : digits s -> s <> [] -> whole s rest -> no_digit rest.
Proof.
  intros D NE W c r E. destruct (exists_last NE) as (x & d & ->). apply Forall_app in D as [_ D]. inversion D; subst.
  destruct (is_digit c) eqn:K; [|reflexivity]. apply is_digit_iff in K. elim (W x d c r eq_refl eq_refl). auto.
Qed.

(** ** Reading at least a given text *)
(** [f] reads [s] and maybe more of what follows; exactly [s] as [a] if no more *)
Definition grows {A} (f : parser A) (g : A -> bytes -> Prop) : Prop :=
  forall a s rest, g a s -> whole s rest ->
  exists u r a', rest = u ++ r /\ f (s ++ rest) = PO r a' /\ (u = [] -> a' = a).

Section Loop.
Context {A B : Type} (psep : parser B) (f : parser A) (sep : bytes -> Prop) (g0 : A -> bytes -> Prop).
Context (Ssep : sound psep (fun _ s => sep s)) (Sf : sound f g0) (Tsep : total psep) (Tf : total f).
Context (NeS : forall q, sep q -> q <> []).

Lemma loop_runs fuel : forall i acc, (List.length i < fuel)%nat ->
  exists u r l, i = u ++ r /\ sep_loop fuel psep f i acc = PO r (rev acc ++ l) /\ (u = [] -> l = []).
Proof.
  induction fuel as [|fuel IH]; intros i acc L; [lia|]. cbn [sep_loop].
  assert (Stop : exists u r l, i = u ++ r /\ PO i (rev acc) = PO r (rev acc ++ l) /\ (u = [] -> l = [])).
  { exists [], i, []. rewrite app_nil_r. auto. }
  pose proof (Tsep i). destruct (psep i) as [i1 x| |] eqn:E1; [|exact Stop|congruence].
  apply Ssep in E1 as (q & -> & Q). pose proof (NeS q Q) as NQ.
  assert (N1 : bytes_eqb i1 (q ++ i1) = false) by (apply bytes_eqb_neq, app_neq; auto). rewrite N1.
  pose proof (Tf i1). destruct (f i1) as [i2 a| |] eqn:E2; [|exact Stop|congruence].
  apply Sf in E2 as (t & -> & _).
  assert (N2 : bytes_eqb i2 (q ++ t ++ i2) = false).
  { apply bytes_eqb_neq. rewrite app_assoc. apply app_neq. intros K. apply app_eq_nil in K as [K _]. easy. }
  rewrite N2.
  destruct (IH i2 (a :: acc)) as (u & r & l & -> & E & _).
  { rewrite !app_length in L. destruct q; [easy|]. cbn [List.length] in L. lia. }
  exists (q ++ t ++ u), r, (a :: l). split; [now rewrite !app_assoc|]. split.
  - rewrite E. cbn [rev]. now rewrite <- app_assoc.
  - intros K. apply app_eq_nil in K as [K _]. easy.
Qed.

(** a list whose last element may be from [h] *)
Context (g h : A -> bytes -> Prop) (FI : bytes -> Prop).
Context (Cf : forall a s rest, g a s -> FI rest -> f (s ++ rest) = PO rest a).
Context (Gh : grows f h).
Context (NeG : forall a s, g a s -> s <> []) (NeH : forall a s, h a s -> s <> []).
Context (Fol : forall q a s rest, sep q -> g a s \/ h a s -> FI (q ++ s ++ rest)).
Context (Csep : forall q a s rest, sep q -> g a s \/ h a s -> exists x, psep (q ++ s ++ rest) = PO (s ++ rest) x).

Lemma last_start l t : last_list sep g h l t -> exists a s r, (g a s \/ h a s) /\ t = s ++ r.
Proof. intros [a s H|a s p l' u G P L]; [exists a, s, []; rewrite app_nil_r|exists a, s, (p ++ u)]; auto. Qed.
Lemma last_nonempty l t : last_list sep g h l t -> t <> [].
Proof.
  intros L. apply last_start in L as (a & s & r & K & ->). intros E. apply app_eq_nil in E as [E _].
  destruct K as [K|K]; [now apply (NeG a s)|now apply (NeH a s)].
Qed.

Lemma loop_grows l t : last_list sep g h l t -> forall q rest fuel acc,
  sep q -> whole t rest -> (List.length (q ++ t ++ rest) < fuel)%nat ->
  exists u r l', rest = u ++ r /\ sep_loop fuel psep f (q ++ t ++ rest) acc = PO r (rev acc ++ l') /\ (u = [] -> l' = l).
Proof.
  induction 1 as [a s H|a s p l t G P L IH]; intros q rest fuel acc Q W Len.
  - destruct fuel as [|fuel]; [lia|]. cbn [sep_loop].
    destruct (Csep q a s rest Q (or_intror H)) as (x & E). rewrite E.
    destruct (Gh a s rest H W) as (u & r & a' & -> & F & K). rewrite F.
    pose proof (NeS q Q) as NQ.
    assert (N1 : bytes_eqb (s ++ u ++ r) (q ++ s ++ u ++ r) = false) by (apply bytes_eqb_neq, app_neq; auto).
    assert (N2 : bytes_eqb r (q ++ s ++ u ++ r) = false).
    { apply bytes_eqb_neq. rewrite !app_assoc. apply app_neq. intros Z. apply app_eq_nil in Z as [Z _].
      apply app_eq_nil in Z as [Z _]. easy. }
    rewrite N1, N2.
    destruct (loop_runs fuel r (a' :: acc)) as (u2 & r2 & l2 & -> & E2 & K2).
    { rewrite !app_length in Len. destruct q; [easy|]. cbn [List.length] in Len. lia. }
    exists (u ++ u2), r2, (a' :: l2). split; [now rewrite app_assoc|]. split.
    + rewrite E2. cbn [rev]. now rewrite <- app_assoc.
    + intros Z. apply app_eq_nil in Z as [Z1 Z2]. now rewrite K, K2.
  - destruct fuel as [|fuel]; [lia|]. cbn [sep_loop].
    pose proof (last_nonempty l t L) as NT. destruct (last_start l t L) as (a' & s' & t' & G' & ->).
    replace (q ++ (s ++ p ++ s' ++ t') ++ rest) with (q ++ s ++ (p ++ (s' ++ t') ++ rest)) in * by now rewrite !app_assoc.
    destruct (Csep q a s (p ++ (s' ++ t') ++ rest) Q (or_introl G)) as (x & E). rewrite E.
    rewrite (Cf a s _ G) by (rewrite <- app_assoc; eapply Fol; eauto).
    assert (N1 : bytes_eqb (s ++ p ++ (s' ++ t') ++ rest) (q ++ s ++ p ++ (s' ++ t') ++ rest) = false) by (apply bytes_eqb_neq, app_neq; auto).
    assert (N2 : bytes_eqb (p ++ (s' ++ t') ++ rest) (q ++ s ++ p ++ (s' ++ t') ++ rest) = false).
    { apply bytes_eqb_neq. rewrite (app_assoc q). apply app_neq. intros K. apply app_eq_nil in K as [K _]. now apply (NeS q). }
    rewrite N1, N2.
    destruct (IH p rest fuel (a :: acc) P) as (u & r & l' & -> & E2 & K2).
    + apply whole_app in W; [|intros K; apply app_eq_nil in K as [_ K]; easy]. now apply whole_app in W.
    + rewrite !app_length in *. pose proof (NeS q Q). destruct q; [easy|]. cbn [List.length] in Len. lia.
    + exists u, r, (a :: l'). split; [reflexivity|]. split.
      * rewrite E2. cbn [rev]. now rewrite <- app_assoc.
      * intros Z. now rewrite K2.
Qed.

Lemma last_list_grows : grows (separated_nonempty_list psep f) (last_list sep g h).
Proof.
  intros l t rest L W. unfold separated_nonempty_list. destruct L as [a s H|a s p l t G P L].
  - destruct (Gh a s rest H W) as (u & r & a' & -> & F & K). rewrite F.
    assert (N : bytes_eqb r (s ++ u ++ r) = false).
    { apply bytes_eqb_neq. rewrite app_assoc. apply app_neq. intros Z. apply app_eq_nil in Z as [Z _]. exact (NeH a s H Z). }
    rewrite N.
    destruct (loop_runs (S (List.length (s ++ u ++ r))) r [a']) as (u2 & r2 & l2 & -> & E2 & K2).
    { rewrite !app_length. lia. }
    exists (u ++ u2), r2, (a' :: l2). split; [now rewrite app_assoc|]. split; [exact E2|].
    intros Z. apply app_eq_nil in Z as [Z1 Z2]. now rewrite K, K2.
  - pose proof (last_nonempty l t L) as NT. destruct (last_start l t L) as (a' & s' & t' & G' & Et).
    replace ((s ++ p ++ t) ++ rest) with (s ++ (p ++ t ++ rest)) by now rewrite !app_assoc.
    rewrite (Cf a s _ G) by (rewrite Et, <- app_assoc; eapply Fol; eauto).
    assert (N1 : bytes_eqb (p ++ t ++ rest) (s ++ p ++ t ++ rest) = false) by (apply bytes_eqb_neq, app_neq; eauto). rewrite N1.
    destruct (loop_grows l t L p rest (S (List.length (s ++ p ++ t ++ rest))) [a] P) as (u & r & l' & -> & E2 & K2).
    + apply whole_app in W; [|intros K; apply app_eq_nil in K as [_ K]; easy]. now apply whole_app in W.
    + rewrite (app_length s). lia.
    + exists u, r, (a :: l'). split; [reflexivity|]. split; [exact E2|]. intros Z. now rewrite K2.
Qed.

(** soundness: only the last element is from [h], and then no separator follows *)
Context (D : bytes -> Prop) (DN : forall r, D r -> psep r = PE).
Context (Tight : forall i r a, f i = PO r a -> exists s, i = s ++ r /\ whole s r /\ (g a s \/ (h a s /\ D r))).
Lemma loop_tight fuel : forall i acc r l, sep_loop fuel psep f i acc = PO r l ->
  exists l', l = rev acc ++ l' /\
    ((l' = [] /\ r = i) \/
     exists p t, sep p /\ i = p ++ t ++ r /\ t <> [] /\ whole t r /\ (sep_list sep g l' t \/ (last_list sep g h l' t /\ D r))).
Proof.
  induction fuel as [|fuel IH]; intros i acc r l H; [discriminate|]. cbn [sep_loop] in H.
  destruct (psep i) as [i1 x| |] eqn:E1; try discriminate.
  - destruct (bytes_eqb i1 i); [discriminate|].
    destruct (f i1) as [i2 a| |] eqn:E2; try discriminate.
    + destruct (bytes_eqb i2 i); [discriminate|].
      apply Ssep in E1 as (q & -> & Q). apply Tight in E2 as (s & -> & W & G).
      assert (NS : s <> []) by (destruct G as [G|[G _]]; eauto).
      destruct G as [G|[G DR]].
      * apply IH in H as (l' & -> & K). exists (a :: l'). split; [cbn [rev]; now rewrite <- app_assoc|]. right.
        destruct K as [[-> ->]|(p' & t' & P' & -> & N' & W' & L')].
        -- exists q, s. split; [auto|]. split; [reflexivity|]. split; [auto|]. split; [auto|]. left. now constructor.
        -- exists q, (s ++ p' ++ t'). split; [auto|]. split; [now rewrite !app_assoc|].
           split; [intros Z; apply app_eq_nil in Z as [Z _]; easy|]. split.
           ++ apply whole_app; [intros Z; apply app_eq_nil in Z as [_ Z]; easy|]. now apply whole_app.
           ++ destruct L' as [L'|[L' DR]]; [left; now constructor|right; split; [now constructor|auto]].
      * destruct fuel as [|fuel]; [discriminate|]. cbn [sep_loop] in H. rewrite (DN i2 DR) in H. injection H as <- <-.
        exists [a]. split; [reflexivity|]. right. exists q, s. split; [auto|]. split; [reflexivity|].
        split; [auto|]. split; [auto|]. right. split; [now constructor|auto].
    + injection H as <- <-. exists []. split; [now rewrite app_nil_r|]. now left.
  - injection H as <- <-. exists []. split; [now rewrite app_nil_r|]. now left.
Qed.
Lemma list_tight i r l : separated_nonempty_list psep f i = PO r l ->
  exists t, i = t ++ r /\ whole t r /\ (sep_list sep g l t \/ (last_list sep g h l t /\ D r)).
Proof.
  unfold separated_nonempty_list. intros H. destruct (f i) as [i1 a| |] eqn:E; try discriminate.
  destruct (bytes_eqb i1 i); [discriminate|]. apply Tight in E as (s & -> & W & [G|[G DR]]).
  - apply loop_tight in H as (l' & -> & [[-> ->]|(p & t & P & -> & N & W' & L)]); cbn [rev app].
    + exists s. split; [reflexivity|]. split; [auto|]. left. now constructor.
    + exists (s ++ p ++ t). split; [now rewrite !app_assoc|]. split.
      * apply whole_app; [intros Z; apply app_eq_nil in Z as [_ Z]; easy|]. now apply whole_app.
      * destruct L as [L|[L DR]]; [left; now constructor|right; split; [now constructor|auto]].
  - cbn [sep_loop] in H. rewrite (DN i1 DR) in H. injection H as <- <-. exists s. split; [reflexivity|]. split; [auto|].
    right. split; [now constructor|auto].
Qed.
End Loop.

(** a list is a list whose last element is like the others *)
Lemma sep_last {A} sep (g h : A -> bytes -> Prop) l s :
  (forall a t, g a t -> h a t) -> sep_list sep g l s -> last_list sep g h l s.
Proof. intros K. induction 1; constructor; auto. Qed.

(** ** Numbers and their lists *)
Lemma item_grows : grows p_range_list_item g_item.
Proof.
  intros it s rest G W. destruct G as [k s G|lo up s t G1 G2].
  - assert (ND : no_digit rest) by (destruct G as (X & Y & _); now apply (whole_digits s)).
    unfold p_range_list_item, palt, p_range, pmap, separated_pair, pbind. rewrite (value_complete k s rest G ND).
    destruct (tag (bs "..") rest) as [r1 x| |] eqn:T.
    + apply tag_sound in T as (dd & -> & ->). destruct (p_value r1) as [r2 k2| |] eqn:V.
      * apply value_sound in V as (d & -> & _). exists (bs ".." ++ d), r2. eexists.
        split; [now rewrite app_assoc|]. split; [reflexivity|]. discriminate.
      * exists [], (bs ".." ++ r1). eexists. split; [reflexivity|]. split; [reflexivity|auto].
      * elim (value_total r1 V).
    + exists [], rest. eexists. split; [reflexivity|]. split; [reflexivity|auto].
    + elim (tag_total _ _ T).
  - assert (ND : no_digit rest).
    { rewrite app_assoc in W. destruct G2 as (X & Y & _). apply whole_app in W; [|exact Y]. now apply (whole_digits t). }
    exists [], rest. eexists. split; [reflexivity|]. split; [|reflexivity].
    unfold p_range_list_item, palt, p_range, pmap, separated_pair, pbind. rewrite <- !app_assoc.
    rewrite (value_complete lo s _ G1) by (intros c r E; now injection E as <- _).
    rewrite tag_app. now rewrite (value_complete up t rest G2).
Qed.
Lemma list_grows : grows (separated_nonempty_list p_comma p_range_list_item) g_list.
Proof.
  intros l s rest G. apply (last_list_grows p_comma p_range_list_item comma g_item comma_sound item_sound comma_total item_total
    comma_nonempty g_item g_item fol_number).
  - intros a t r I K. now apply item_complete.
  - exact item_grows.
  - intros a t I. apply head_nonempty. now apply (item_head a).
  - intros a t I. apply head_nonempty. now apply (item_head a).
  - intros q a t r Q I. now apply comma_fol.
  - intros q a t r Q I. apply comma_complete; [auto|]. apply digit_head_blank. destruct I; now apply (item_head a).
  - now apply (sep_last comma g_item g_item).
Qed.
Lemma range_list_eq i : p_range_list i = match separated_nonempty_list p_comma p_range_list_item i with
                                         | PE => match p_range_list_item i with PE => PO i [] | _ => PE end
                                         | x => x end.
Proof.
  unfold p_range_list, separated_list, separated_nonempty_list. destruct (p_range_list_item i); [|reflexivity|reflexivity].
  destruct (bytes_eqb rest i); [reflexivity|]. destruct (sep_loop _ _ _ _ _); reflexivity.
Qed.
Lemma value_maximal i r k : p_value i = PO r k -> no_digit r.
Proof.
  unfold p_value, pmap_res, digit1, pbind. pose proof (span_spec is_digit i) as S.
  destruct (span is_digit i) as [x y]. destruct S as (_ & _ & S). destruct x as [|c x]; [discriminate|].
  destruct (usize_from_str (c :: x)); [|discriminate]. intros H. injection H as <- _. exact S.
Qed.
Lemma item_maximal i r it : p_range_list_item i = PO r it -> no_digit r.
Proof.
  unfold p_range_list_item, palt, p_range, pmap, separated_pair, pbind.
  destruct (p_value i) as [r1 k| |] eqn:V; try discriminate. apply value_maximal in V.
  destruct (tag (bs "..") r1) as [r2 x| |]; [|intros H; injection H as <- _; exact V|discriminate].
  destruct (p_value r2) as [r3 k2| |] eqn:V2; [|intros H; injection H as <- _; exact V|discriminate].
  intros H. injection H as <- _. now apply value_maximal in V2.
Qed.
Lemma loop_maximal fuel : forall i acc r l, no_digit i -> sep_loop fuel p_comma p_range_list_item i acc = PO r l -> no_digit r.
Proof.
  induction fuel as [|fuel IH]; intros i acc r l N H; [discriminate|]. cbn [sep_loop] in H.
  destruct (p_comma i) as [i1 x| |]; [|injection H as <- _; exact N|discriminate].
  destruct (bytes_eqb i1 i); [discriminate|].
  destruct (p_range_list_item i1) as [i2 a| |] eqn:E; [|injection H as <- _; exact N|discriminate].
  destruct (bytes_eqb i2 i); [discriminate|]. apply IH in H; [exact H|]. now apply item_maximal in E.
Qed.
Lemma range_list_tight i r l : p_range_list i = PO r l ->
  (l = [] /\ r = i) \/ exists s, i = s ++ r /\ no_digit r /\ g_list l s.
Proof.
  intros H. assert (H' := H). apply list_sound in H' as (s & -> & [G|(_ & -> & ->)]); [|now left].
  right. exists s. split; [reflexivity|]. split; [|exact G].
  unfold p_range_list, separated_list in H. destruct (p_range_list_item (s ++ r)) as [i1 o| |] eqn:E; try discriminate.
  - destruct (bytes_eqb i1 (s ++ r)); [discriminate|]. apply loop_maximal in H; [exact H|]. now apply item_maximal in E.
  - injection H as _ <-. inversion G.
Qed.
Lemma range_list_runs i : exists u r l, i = u ++ r /\ p_range_list i = PO r l /\ (u = [] -> l = []).
Proof.
  unfold p_range_list, separated_list. pose proof (item_total i). destruct (p_range_list_item i) as [i1 a| |] eqn:E.
  - apply item_sound in E as (s & -> & G). pose proof (head_nonempty s (item_head a s G)) as NS.
    assert (N : bytes_eqb i1 (s ++ i1) = false) by (apply bytes_eqb_neq, app_neq; auto). rewrite N.
    destruct (loop_runs p_comma p_range_list_item comma g_item comma_sound item_sound comma_total item_total comma_nonempty
                (S (List.length (s ++ i1))) i1 [a]) as (u & r & l & -> & E2 & K).
    { rewrite app_length. lia. }
    exists (s ++ u), r, (a :: l). split; [now rewrite app_assoc|]. split; [exact E2|].
    intros Z. apply app_eq_nil in Z as [Z _]. easy.
  - exists [], i, []. auto.
  - congruence.
Qed.
Lemma range_list_grows : grows p_range_list g_list.
Proof.
  intros l s rest G W. destruct (list_grows l s rest G W) as (u & r & l' & E & F & K). exists u, r, l'.
  split; [exact E|]. split; [|exact K]. now rewrite range_list_eq, F.
Qed.

(** ** Relations *)
Lemma space0_any b rest : blanks b -> exists u r x, rest = u ++ r /\ space0 (b ++ rest) = PO r x /\ no_blank r.
Proof.
  intros B. unfold space0. pose proof (span_spec is_space rest) as S. destruct (span is_space rest) as [u r] eqn:E.
  destruct S as (-> & U & N). exists u, r. eexists. split; [reflexivity|].
  assert (NB : no_blank r) by exact N.
  rewrite app_assoc, span_app.
  - split; [reflexivity|exact NB].
  - rewrite forallb_app, U. apply blanks_forallb in B. now rewrite B.
  - exact N.
Qed.
Lemma space1_any b rest : blanks1 b -> exists u r x, rest = u ++ r /\ space1 (b ++ rest) = PO r x /\ no_blank r.
Proof.
  intros [B NE]. unfold space1. pose proof (span_spec is_space rest) as S. destruct (span is_space rest) as [u r] eqn:E.
  destruct S as (-> & U & N). exists u, r, (b ++ u). split; [reflexivity|].
  assert (NB : no_blank r) by exact N.
  rewrite app_assoc, span_app.
  - destruct (b ++ u) as [|c t] eqn:Z; [apply app_eq_nil in Z as [Z _]; easy|]. split; [reflexivity|exact NB].
  - rewrite forallb_app, U. apply blanks_forallb in B. now rewrite B.
  - exact N.
Qed.

(** every operator but "is" is read exactly *)
Lemma operator_exact o os x : g_op o os -> o <> OpIs -> p_relation_operator (os ++ x) = PO x o.
Proof.
  intros G NI. unfold p_relation_operator, palt, pmap, pseq, pbind. destruct G as [| | |b B| |b B| |b B].
  - now rewrite tag_app.
  - assert (X : tag (bs "=") (bs "!=" ++ x) = PE) by reflexivity. rewrite X. now rewrite tag_app.
  - easy.
  - rewrite <- !app_assoc.
    assert (X : tag (bs "=") (bs "is" ++ b ++ bs "not" ++ x) = PE) by reflexivity. rewrite X.
    assert (Y : tag (bs "!=") (bs "is" ++ b ++ bs "not" ++ x) = PE) by reflexivity. rewrite Y.
    rewrite tag_app, space1_app by (auto; now apply no_blank_cons). unfold popt. now rewrite tag_app.
  - assert (X : tag (bs "=") (bs "in" ++ x) = PE) by reflexivity. rewrite X.
    assert (Y : tag (bs "!=") (bs "in" ++ x) = PE) by reflexivity. rewrite Y.
    assert (Z : tag (bs "is") (bs "in" ++ x) = PE) by reflexivity. rewrite Z. now rewrite tag_app.
  - rewrite <- !app_assoc.
    assert (X : tag (bs "=") (bs "not" ++ b ++ bs "in" ++ x) = PE) by reflexivity. rewrite X.
    assert (Y : tag (bs "!=") (bs "not" ++ b ++ bs "in" ++ x) = PE) by reflexivity. rewrite Y.
    assert (Z : tag (bs "is") (bs "not" ++ b ++ bs "in" ++ x) = PE) by reflexivity. rewrite Z.
    assert (W : tag (bs "in") (bs "not" ++ b ++ bs "in" ++ x) = PE) by reflexivity. rewrite W.
    rewrite tag_app, space1_app by (auto; now apply no_blank_cons). now rewrite tag_app.
  - assert (X : tag (bs "=") (bs "within" ++ x) = PE) by reflexivity. rewrite X.
    assert (Y : tag (bs "!=") (bs "within" ++ x) = PE) by reflexivity. rewrite Y.
    assert (Z : tag (bs "is") (bs "within" ++ x) = PE) by reflexivity. rewrite Z.
    assert (W : tag (bs "in") (bs "within" ++ x) = PE) by reflexivity. rewrite W.
    assert (V : tag (bs "not") (bs "within" ++ x) = PE) by reflexivity. rewrite V. now rewrite tag_app.
  - rewrite <- !app_assoc.
    assert (X : tag (bs "=") (bs "not" ++ b ++ bs "within" ++ x) = PE) by reflexivity. rewrite X.
    assert (Y : tag (bs "!=") (bs "not" ++ b ++ bs "within" ++ x) = PE) by reflexivity. rewrite Y.
    assert (Z : tag (bs "is") (bs "not" ++ b ++ bs "within" ++ x) = PE) by reflexivity. rewrite Z.
    assert (W : tag (bs "in") (bs "not" ++ b ++ bs "within" ++ x) = PE) by reflexivity. rewrite W.
    rewrite tag_app, space1_app by (auto; now apply no_blank_cons).
    assert (V : tag (bs "in") (bs "within" ++ x) = PE) by reflexivity. rewrite V. now rewrite tag_app.
Qed.
Lemma op_eq_dec (a b : operator) : {a = b} + {a <> b}.
Proof. decide equality. Defined.
Lemma operator_grows o os b rest : g_op o os -> blanks b -> (o = OpIs -> b <> []) ->
  exists u r o' x, rest = u ++ r /\ (exists r1, p_relation_operator (os ++ b ++ rest) = PO r1 o' /\ space0 r1 = PO r x) /\
    (u = [] -> o' = o).
Proof.
  intros G B NI. destruct (op_eq_dec o OpIs) as [->|NO].
  - assert (E : os = bs "is") by now inversion G. subst os.
    destruct (space1_any b rest) as (u & r & x & -> & S & NB); [split; auto|].
    unfold p_relation_operator, palt, pmap, pseq, pbind.
    assert (X : tag (bs "=") (bs "is" ++ b ++ u ++ r) = PE) by reflexivity. rewrite X.
    assert (Y : tag (bs "!=") (bs "is" ++ b ++ u ++ r) = PE) by reflexivity. rewrite Y.
    rewrite tag_app, S. unfold popt. destruct (tag (bs "not") r) as [r1 z| |] eqn:T.
    + apply tag_sound in T as (w & -> & ->). destruct (space0_any [] r1) as (u1 & r2 & x1 & -> & S1 & N1); [constructor|].
      exists (u ++ bs "not" ++ u1), r2. do 2 eexists. split; [now rewrite <- !app_assoc|]. split; [eexists; split; [reflexivity|exact S1]|].
      intros Z. apply app_eq_nil in Z as [_ Z]. discriminate.
    + exists u, r. do 2 eexists. split; [reflexivity|].
      split; [eexists; split; [reflexivity|apply (space0_app []); [constructor|exact NB]]|]. reflexivity.
    + elim (tag_total _ _ T).
  - destruct (space0_any b rest B) as (u & r & x & -> & S & NB).
    exists u, r. do 2 eexists. split; [reflexivity|].
    split; [exists (b ++ u ++ r); split; [exact (operator_exact o os _ G NO)|exact S]|]. reflexivity.
Qed.

Lemma relation_grows : grows p_relation (g_relation false).
Proof.
  intros rel s rest [e es b1 o os b2 l ls E B1 O B2 NI L] W.
  assert (OH := op_starts o os O). unfold p_relation, pmap. rewrite <- !app_assoc.
  unfold pseq at 1. unfold pbind at 2. rewrite (expression_complete e es b1 _ E B1) by now apply op_head_app.
  unfold pseq at 1. unfold pbind at 3. rewrite space0_app by (auto; now apply op_head_blank, op_head_app).
  destruct L as [L|(_ & -> & ->)].
  - assert (H := list_head l ls L). destruct (operator_complete o os b2 ls rest O B2 NI H) as (x & P).
    unfold pseq, pbind in P |- *.
    destruct (p_relation_operator (os ++ b2 ++ ls ++ rest)) as [r1 o1| |]; try discriminate.
    destruct (space0 r1) as [r2 y| |]; try discriminate. injection P as -> -> ->.
    destruct (range_list_grows l ls rest L) as (u & r & l' & -> & F & K).
    { pose proof (head_nonempty ls H). rewrite !app_assoc in W. now apply whole_app in W. }
    rewrite F. exists u, r. eexists. split; [reflexivity|]. split; [reflexivity|]. intros Z. now rewrite K.
  - cbn [app]. destruct (operator_grows o os b2 rest O B2 NI) as (u & r & o' & x & -> & (r1 & P & S) & K).
    unfold pseq, pbind. rewrite P, S. destruct (range_list_runs r) as (u2 & r2 & l' & -> & F & K2). rewrite F.
    exists (u ++ u2), r2. eexists. split; [now rewrite app_assoc|]. split; [reflexivity|].
    intros Z. apply app_eq_nil in Z as [Z1 Z2]. now rewrite K, K2.
Qed.

Lemma op_last o os : g_op o os -> exists x c, os = x ++ [c] /\ ~ digit_char c.
Proof.
  assert (K : forall (w : bytes) (c : N), is_digit c = false -> exists x d, w ++ [c] = x ++ [d] /\ ~ digit_char d).
  { intros w c H. exists w, c. split; [reflexivity|]. intros D. apply is_digit_iff in D. congruence. }
  intros [| | |b _| |b _| |b _].
  - now apply (K [] 61).
  - now apply (K [33] 61).
  - now apply (K [105] 115).
  - destruct (K (bs "is" ++ b ++ bs "no") 116) as (x & d & E & D); [reflexivity|]. exists x, d. split; [|exact D].
    rewrite <- E. now rewrite <- !app_assoc.
  - now apply (K [105] 110).
  - destruct (K (bs "not" ++ b ++ bs "i") 110) as (x & d & E & D); [reflexivity|]. exists x, d. split; [|exact D].
    rewrite <- E. now rewrite <- !app_assoc.
  - now apply (K (bs "withi") 110).
  - destruct (K (bs "not" ++ b ++ bs "withi") 110) as (x & d & E & D); [reflexivity|]. exists x, d. split; [|exact D].
    rewrite <- E. now rewrite <- !app_assoc.
Qed.
Lemma whole_op o os b rest : g_op o os -> blanks b -> whole (os ++ b) rest.
Proof.
  intros G B. destruct b as [|c0 b0] eqn:Eb.
  - rewrite app_nil_r. destruct (op_last o os G) as (x & c & -> & N). intros x' c' d y E _ [D _].
    apply app_inj_tail in E as [_ ->]. easy.
  - rewrite <- Eb in *. assert (NE : b <> []) by now subst.
    destruct (exists_last NE) as (x & c & ->). apply Forall_app in B as [_ B]. inversion B as [|? ? C]; subst.
    intros x' c' d y E _ [D _]. rewrite app_assoc in E. apply app_inj_tail in E as [_ ->].
    unfold digit_char in D. destruct C; lia.
Qed.
Lemma relation_tight i r rel : p_relation i = PO r rel ->
  exists s, i = s ++ r /\ whole s r /\ (g_relation true rel s \/ (g_relation false rel s /\ no_blank r)).
Proof.
  unfold p_relation, pmap, pseq, pbind. intros H.
  destruct (p_expression i) as [i1 e| |] eqn:P1; try discriminate.
  destruct (space0 i1) as [i2 b| |] eqn:P2; try discriminate.
  destruct (p_relation_operator i2) as [i3 o| |] eqn:P3; try discriminate.
  destruct (space0 i3) as [i4 b'| |] eqn:P4; try discriminate.
  destruct (p_range_list i4) as [i5 l| |] eqn:P5; try discriminate. injection H as <- <-.
  apply expression_sound in P1 as (es & -> & E). apply space0_sound in P2 as (b1 & -> & B1).
  apply operator_sound in P3 as (os & -> & O).
  assert (NB : no_blank i4).
  { destruct (space0_any [] i3) as (u & r & x & _ & S & N); [constructor|]. cbn [app] in S. rewrite S in P4.
    injection P4 as <- _. exact N. }
  apply space0_sound in P4 as (b2 & -> & B2). apply range_list_tight in P5.
  assert (X : exists os' b3, g_op o os' /\ blanks b3 /\ (o = OpIs -> b3 <> []) /\ os ++ b2 ++ i4 = os' ++ b3 ++ i4 /\
              forall t, es ++ b1 ++ os ++ b2 ++ t = es ++ b1 ++ os' ++ b3 ++ t).
  { destruct O as [[O NO]|(-> & b0 & B0 & ->)].
    - exists os, b2. repeat split; auto; congruence.
    - exists (bs "is"), (b0 ++ b2). split; [constructor|]. split; [apply blanks_app; [apply B0|exact B2]|].
      split; [intros _ Z; apply app_eq_nil in Z as [Z _]; now apply B0|].
      split; [now rewrite <- !app_assoc|]. intros t. now rewrite <- !app_assoc. }
  destruct X as (os' & b3 & G & B3 & NI & EX & EX2). rewrite EX2.
  destruct P5 as [[-> ->]|(s & -> & ND & L)].
  - exists (es ++ b1 ++ os' ++ b3 ++ []). split; [now rewrite <- !app_assoc|]. split.
    + rewrite app_nil_r. apply whole_app; [|apply whole_app]; [| |now apply (whole_op o)].
      * intros Z. apply app_eq_nil in Z as [_ Z]. apply app_eq_nil in Z as [Z _]. subst. inversion G.
      * intros Z. apply app_eq_nil in Z as [Z _]. subst. inversion G.
    + right. split; [|exact NB]. constructor; auto. right. auto.
  - exists (es ++ b1 ++ os' ++ b3 ++ s). split; [now rewrite <- !app_assoc|]. split; [now apply whole_no_digit|].
    left. constructor; auto. now left.
Qed.

(** ** Conditions *)
Lemma no_blank_word w r : no_blank r -> p_word w r = PE.
Proof.
  intros N. unfold p_word, pseq, pbind, space1. destruct r as [|c r]; [reflexivity|]. cbn [span]. now rewrite (N c r eq_refl).
Qed.
Lemma relation_weaken r s : g_relation true r s -> g_relation false r s.
Proof. intros [e es b1 o os b2 l ls E B1 O B2 NI [L|[X _]]]; [|discriminate]. constructor; auto. now left. Qed.
Lemma and_word_complete q s rest : word (bs "and") q -> letter_head s -> exists x, p_word (bs "and") (q ++ s ++ rest) = PO (s ++ rest) x.
Proof. intros Q L. apply word_complete; [auto|now apply no_blank_cons|easy|now apply letter_head_blank]. Qed.
Lemma or_word_complete q s rest : word (bs "or") q -> letter_head s -> exists x, p_word (bs "or") (q ++ s ++ rest) = PO (s ++ rest) x.
Proof. intros Q L. apply word_complete; [auto|now apply no_blank_cons|easy|now apply letter_head_blank]. Qed.

Lemma open_and_head a s : g_open_and a s -> letter_head s.
Proof.
  intros H. apply last_start in H as (r & t & u & G & ->).
  assert (L : letter_head t) by (destruct G as [G|G]; eapply relation_head; eauto).
  destruct L as (x & t' & ->). rewrite <- app_assoc. eexists _, _. reflexivity.
Qed.
Lemma and_grows : grows p_and_condition g_open_and.
Proof.
  intros l s rest. apply (last_list_grows (p_word (bs "and")) p_relation (word (bs "and")) (g_relation false)
    (word_sound _) relation_sound (word_total _) relation_total (word_nonempty _) (g_relation true) (g_relation false) fol_list).
  - intros r t u I K. now apply relation_complete.
  - exact relation_grows.
  - intros r t I. apply letter_head_nonempty. now apply (relation_head true r).
  - intros r t I. apply letter_head_nonempty. now apply (relation_head false r).
  - intros q r t u Q I. now apply (word_fol (bs "and") 97 (bs "nd")).
  - intros q r t u Q [I|I]; (apply and_word_complete; [auto|eapply relation_head; eauto]).
Qed.
Lemma and_tight i r a : p_and_condition i = PO r a ->
  exists s, i = s ++ r /\ whole s r /\ (g_and true a s \/ (g_open_and a s /\ no_blank r)).
Proof.
  apply (list_tight (p_word (bs "and")) p_relation (word (bs "and")) (word_sound _) (g_relation true) (g_relation false)).
  - intros b t I. apply letter_head_nonempty. now apply (relation_head true b).
  - intros b t I. apply letter_head_nonempty. now apply (relation_head false b).
  - apply no_blank_word.
  - exact relation_tight.
Qed.
Definition p_or : parser condition := separated_nonempty_list (p_word (bs "or")) p_and_condition.
Lemma or_grows : grows p_or g_open_condition.
Proof.
  unfold p_or, g_open_condition. apply (last_list_grows (p_word (bs "or")) p_and_condition (word (bs "or")) (g_and false)
    (word_sound _) and_sound (word_total _) and_total (word_nonempty _) (g_and true) g_open_and fol_and).
  - intros r t u I K. now apply and_complete.
  - exact and_grows.
  - intros r t I. apply letter_head_nonempty. now apply (and_head true r).
  - intros r t I. apply letter_head_nonempty. now apply (open_and_head r).
  - intros q r t u Q I. split; [now apply (word_fol (bs "or") 111 (bs "r"))|].
    destruct Q as (b1 & b2 & [B1 _] & _ & ->). rewrite <- !app_assoc. apply word_miss; auto.
  - intros q r t u Q [I|I]; (apply or_word_complete; [auto|]); [eapply and_head; eauto|eapply open_and_head; eauto].
Qed.
Lemma or_tight i r c : p_or i = PO r c ->
  exists s, i = s ++ r /\ whole s r /\ (g_condition true c s \/ (g_open_condition c s /\ no_blank r)).
Proof.
  unfold p_or, g_condition, g_open_condition. apply (list_tight (p_word (bs "or")) p_and_condition (word (bs "or")) (word_sound _) (g_and true) g_open_and).
  - intros b t I. apply letter_head_nonempty. now apply (and_head true b).
  - intros b t I. apply letter_head_nonempty. now apply (open_and_head b).
  - apply no_blank_word.
  - exact and_tight.
Qed.
Lemma condition_open c s : g_condition true c s -> g_open_condition c s.
Proof.
  intros G. apply (sep_last _ (g_and true)); [|exact G]. intros a t A. apply (sep_last _ (g_relation true)); [|exact A].
  exact relation_weaken.
Qed.
Lemma open_condition_head c s : g_open_condition c s -> letter_head s.
Proof.
  intros H. apply last_start in H as (r & t & u & G & ->).
  assert (L : letter_head t) by (destruct G as [G|G]; [eapply and_head|eapply open_and_head]; eauto).
  destruct L as (x & t' & ->). rewrite <- app_assoc. eexists _, _. reflexivity.
Qed.
Lemma open_condition_runs c s rest : g_open_condition c s -> p_condition (s ++ rest) = p_or (s ++ rest).
Proof.
  intros G. unfold p_condition. destruct (trim_letter s rest) as (x & t & -> & N).
  { now apply (open_condition_head c). }
  apply N.eqb_neq in N. now rewrite N.
Qed.
Lemma open_unique c c' s : g_open_condition c s -> g_open_condition c' s -> c = c'.
Proof.
  intros G G'.
  destruct (or_grows c s [] G (whole_nil_r s)) as (u & r & x & E & F & K).
  destruct (or_grows c' s [] G' (whole_nil_r s)) as (u' & r' & x' & E' & F' & K').
  symmetry in E, E'. apply app_eq_nil in E as [-> ->]. apply app_eq_nil in E' as [-> ->].
  specialize (K eq_refl). specialize (K' eq_refl). subst x x'. rewrite F in F'. now injection F'.
Qed.

(** the condition parser reads the longest condition *)
Lemma condition_longest s rest c : (exists t, longest_condition s c t rest) -> p_condition s = PO rest c.
Proof.
  intros (t & -> & W & G & M). rewrite (open_condition_runs c t rest G).
  destruct (or_grows c t rest G W) as (u & r & c' & -> & F & K). rewrite F.
  destruct u as [|x u]; [now rewrite K|]. exfalso.
  apply or_tight in F as (s & E & W' & G').
  assert (G2 : g_open_condition c' s) by (destruct G' as [G'|[G' _]]; [now apply condition_open|exact G']).
  specialize (M c' s r E W' G2). apply (f_equal (@List.length N)) in E. rewrite !app_length in E. cbn [List.length] in E. lia.
Qed.
Lemma condition_longest_conv s rest c : p_condition s = PO rest c -> c <> [] -> exists t, longest_condition s c t rest.
Proof.
  intros H NE. destruct (condition_cases s) as [[_ E]|[_ E]]; rewrite E in H; [injection H as <- <-; easy|].
  fold p_or in H, E. assert (H' := H). apply or_tight in H' as (t & -> & W & G').
  assert (G : g_open_condition c t) by (destruct G' as [G'|[G' _]]; [now apply condition_open|exact G']).
  exists t. split; [reflexivity|]. split; [exact W|]. split; [exact G|].
  intros c' t' rest' E' W2 G2. destruct (or_grows c' t' rest' G2 W2) as (u & r & c2 & -> & F & _).
  rewrite <- E' in F. rewrite F in H. injection H as <- <-.
  apply (f_equal (@List.length N)) in E'. rewrite !app_length in E'. lia.
Qed.
Lemma parse_condition_exact s c : parse_plural_condition s = Ok c <->
  (no_condition s /\ c = []) \/ exists t rest, longest_condition s c t rest.
Proof.
  split.
  - intros H. unfold parse_plural_condition in H. destruct (p_condition s) as [rest c'| |] eqn:P; try discriminate.
    injection H as ->. destruct c as [|a c].
    + left. split; [|reflexivity]. apply condition_empty. rewrite P.
      destruct (condition_sound s rest [] P) as [[_ ->]|(x & _ & G)]; [reflexivity|]. now apply sep_list_nonempty in G.
    + right. destruct (condition_longest_conv s rest (a :: c) P) as (t & L); [easy|]. eauto.
  - unfold parse_plural_condition. intros [[N ->]|(t & rest & L)].
    + apply condition_empty in N. now rewrite N.
    + now rewrite (condition_longest s rest c) by eauto.
Qed.
Lemma samples_no_blank r rest sa : no_blank r -> p_samples r = PO rest sa -> rest = r /\ sa = None.
Proof.
  intros N. unfold p_samples, pmap, pseq, popt, preceded, pbind. rewrite !(no_blank_word _ r N).
  intros H. now injection H as <- <-.
Qed.
Lemma parse_rule_exact s r : parse_plural_rule s = Ok r <->
  (no_condition s /\ r = mkRule [] None) \/ g_rule true r s \/
  (ru_samples r = None /\ g_open_condition (ru_condition r) s).
Proof.
  split.
  - unfold parse_plural_rule, p_rule, pmap, pseq, pbind. destruct (condition_cases s) as [[NC ->]|[NC ->]].
    + cbn. intros H. injection H as <-. auto.
    + fold p_or. destruct (p_or s) as [r1 c| |] eqn:P; try discriminate.
      destruct (p_samples r1) as [r2 sa| |] eqn:Q; try discriminate. destruct r2; [|discriminate].
      intros H. injection H as <-. right. apply or_tight in P as (t & -> & W & [G|[G NB]]).
      * left. apply samples_sound in Q as (y & -> & Q). rewrite app_nil_r. now constructor.
      * right. apply samples_no_blank in Q as [<- ->]; [|exact NB]. rewrite app_nil_r. auto.
  - intros [[N ->]|[G|[E G]]].
    + unfold parse_plural_rule, p_rule, pmap, pseq, pbind. apply condition_empty in N. now rewrite N.
    + now apply rule_complete.
    + unfold parse_plural_rule, p_rule, pmap, pseq, pbind.
      pose proof (open_condition_runs _ s [] G) as R. rewrite app_nil_r in R. rewrite R.
      destruct (or_grows _ s [] G (whole_nil_r s)) as (u & r1 & x & E1 & F & K). rewrite app_nil_r in F.
      symmetry in E1. apply app_eq_nil in E1 as [-> ->]. rewrite F. rewrite (K eq_refl). cbn.
      destruct r as [c sa]. cbn in *. now subst sa.
Qed.
Lemma parse_condition_accepts s : (exists c, parse_plural_condition s = Ok c) <->
  no_condition s \/ exists c t rest, s = t ++ rest /\ whole t rest /\ g_open_condition c t.
Proof.
  split.
  - intros (c & H). apply parse_condition_exact in H as [[N _]|(t & rest & E & W & G & _)]; [now left|right; now exists c, t, rest].
  - intros [N|(c & t & rest & -> & W & G)].
    + exists []. apply parse_condition_exact. auto.
    + unfold parse_plural_condition. rewrite (open_condition_runs c t rest G).
      destruct (or_grows c t rest G W) as (u & r & c' & -> & F & _). rewrite F. eauto.
Qed.
Lemma rule_unique r r' s : g_rule true r s -> g_rule true r' s -> r = r'.
Proof. intros G G'. apply rule_complete in G, G'. rewrite G in G'. now injection G'. Qed.
Lemma rule_reading r s : g_rule true r s -> forall r', parse_plural_rule s = Ok r' <-> r' = r.
Proof.
  intros G r'. apply rule_complete in G. rewrite G. split; [intros H; now injection H|now intros ->].
Qed.
End Width.
