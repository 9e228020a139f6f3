(** * Rule texts are put together and taken apart (C114) *)
From Verif Require Import Base Ast CldrParser Spec Grammar ParserProps ParserExact PrinterFacts.
Open Scope N_scope.

(** the last alternative of [c] and the first of [d] become one *)
Fixpoint and_joined (c d : condition) : condition :=
  match c with
  | [] => d
  | [a] => match d with [] => [a] | b :: d' => (a ++ b) :: d' end
  | a :: c' => a :: and_joined c' d
  end.

Section Width.
Context {ptr : ptr_width}.

Lemma sep_app {A} sep (g : A -> bytes -> Prop) l s p l' t : sep_list sep g l s -> sep p -> sep_list sep g l' t ->
  sep_list sep g (l ++ l') (s ++ p ++ t).
Proof.
  intros H P H'. induction H as [a s G|a s q l u G Q H IH].
  - now constructor.
  - cbn [app]. rewrite <- !app_assoc. now constructor.
Qed.
Lemma sep_split {A} sep (g : A -> bytes -> Prop) l l' s : sep_list sep g (l ++ l') s -> l <> [] -> l' <> [] ->
  exists s1 p s2, s = s1 ++ p ++ s2 /\ sep p /\ sep_list sep g l s1 /\ sep_list sep g l' s2.
Proof.
  revert s. induction l as [|a l IH]; intros s H N N'; [now elim N|]. cbn [app] in H.
  inversion H as [x u G E1 E2|x u p r t G P R E1 E2]; subst.
  - destruct l, l'; try discriminate; now elim N'.
  - destruct l as [|b l].
    + exists u, p, t. split; [reflexivity|]. split; [exact P|]. split; [now constructor|exact R].
    + destruct (IH t R ltac:(discriminate) N') as (s1 & q & s2 & -> & Q & H1 & H2).
      exists (u ++ p ++ s1), q, s2. split; [now rewrite <- !app_assoc|]. split; [exact Q|]. split; [now constructor|exact H2].
Qed.
Lemma and_app c d s p t : g_condition true c s -> word (bs "and") p -> g_condition true d t ->
  g_condition true (and_joined c d) (s ++ p ++ t).
Proof.
  intros H P H'. induction H as [a s G|a s q l u G Q H IH].
  - cbn [and_joined]. destruct H' as [b t G'|b t q' l' u' G' Q' H'].
    + constructor. now apply sep_app.
    + replace (s ++ p ++ t ++ q' ++ u') with ((s ++ p ++ t) ++ q' ++ u') by now rewrite <- !app_assoc.
      constructor; auto. now apply sep_app.
  - cbn [and_joined]. destruct l as [|b l]; [inversion H|]. rewrite <- !app_assoc. constructor; auto.
Qed.

Lemma rule_parts s r : parse_plural_rule s = Ok r -> ru_condition r <> [] -> lists_nonempty (ru_condition r) ->
  exists sc ss, s = sc ++ ss /\ g_condition true (ru_condition r) sc /\ g_samples (ru_samples r) ss.
Proof.
  intros P N L. apply (rule_exact s r N L) in P. destruct P as [c sc sa ss G S]. eauto.
Qed.
Lemma rule_of_parts c sa sc ss : g_condition true c sc -> g_samples sa ss -> parse_plural_rule (sc ++ ss) = Ok (mkRule c sa).
Proof. intros G S. apply rule_complete. now constructor. Qed.
Lemma samples_none ss : g_samples None ss -> ss = [].
Proof.
  intro H. inversion H as [i si d sd I D E1 E2]. destruct i, d; try discriminate E1. inversion I; inversion D; reflexivity.
Qed.

Lemma C114_or_lemma s1 r1 p s2 r2 : parse_plural_rule s1 = Ok r1 -> parse_plural_rule s2 = Ok r2 ->
  ru_condition r1 <> [] -> ru_condition r2 <> [] -> lists_nonempty (ru_condition r1) -> lists_nonempty (ru_condition r2) ->
  ru_samples r1 = None -> word (bs "or") p ->
  parse_plural_rule (s1 ++ p ++ s2) = Ok (mkRule (ru_condition r1 ++ ru_condition r2) (ru_samples r2)).
Proof.
  intros P1 P2 N1 N2 L1 L2 Z W. destruct (rule_parts s1 r1 P1 N1 L1) as (sc & ss & -> & G & S). rewrite Z in S.
  apply samples_none in S as ->. rewrite app_nil_r.
  destruct (rule_parts s2 r2 P2 N2 L2) as (sc' & ss' & -> & G' & S'). replace (sc ++ p ++ sc' ++ ss') with ((sc ++ p ++ sc') ++ ss') by now rewrite <- !app_assoc.
  apply rule_of_parts; [|exact S']. now apply sep_app.
Qed.
Lemma C114_and_lemma s1 r1 p s2 r2 : parse_plural_rule s1 = Ok r1 -> parse_plural_rule s2 = Ok r2 ->
  ru_condition r1 <> [] -> ru_condition r2 <> [] -> lists_nonempty (ru_condition r1) -> lists_nonempty (ru_condition r2) ->
  ru_samples r1 = None -> word (bs "and") p ->
  parse_plural_rule (s1 ++ p ++ s2) = Ok (mkRule (and_joined (ru_condition r1) (ru_condition r2)) (ru_samples r2)).
Proof.
  intros P1 P2 N1 N2 L1 L2 Z W. destruct (rule_parts s1 r1 P1 N1 L1) as (sc & ss & -> & G & S). rewrite Z in S.
  apply samples_none in S as ->. rewrite app_nil_r.
  destruct (rule_parts s2 r2 P2 N2 L2) as (sc' & ss' & -> & G' & S'). replace (sc ++ p ++ sc' ++ ss') with ((sc ++ p ++ sc') ++ ss') by now rewrite <- !app_assoc.
  apply rule_of_parts; [|exact S']. now apply and_app.
Qed.
Lemma lists_nonempty_app c d : lists_nonempty (c ++ d) <-> lists_nonempty c /\ lists_nonempty d.
Proof. apply Forall_app. Qed.
Lemma C114_split_lemma s r c d : parse_plural_rule s = Ok r -> ru_condition r = c ++ d -> c <> [] -> d <> [] -> lists_nonempty (c ++ d) ->
  exists s1 p s2, s = s1 ++ p ++ s2 /\ word (bs "or") p /\
    parse_plural_rule s1 = Ok (mkRule c None) /\ parse_plural_rule s2 = Ok (mkRule d (ru_samples r)).
Proof.
  intros P E N N' L. assert (NZ : ru_condition r <> []) by (rewrite E; destruct c; [now elim N|discriminate]).
  destruct (rule_parts s r P NZ ltac:(rewrite E; exact L)) as (sc & ss & -> & G & S). rewrite E in G.
  destruct (sep_split _ _ c d sc G N N') as (s1 & p & s2 & -> & W & G1 & G2).
  exists s1, p, (s2 ++ ss). split; [now rewrite <- !app_assoc|]. split; [exact W|].
  split; [|now apply rule_of_parts].
  rewrite <- (app_nil_r s1). apply rule_of_parts; [exact G1|]. 
  exact (gsa None [] None [] (gp_none _) (gp_none _)).
Qed.
(** a conjunction is taken apart in the same way *)
Lemma C114_split_and_lemma s r a b : parse_plural_rule s = Ok r -> ru_condition r = [a ++ b] -> a <> [] -> b <> [] -> lists_nonempty [a ++ b] ->
  exists s1 p s2, s = s1 ++ p ++ s2 /\ word (bs "and") p /\
    parse_plural_rule s1 = Ok (mkRule [a] None) /\ parse_plural_rule s2 = Ok (mkRule [b] (ru_samples r)).
Proof.
  intros P E N N' L. assert (NZ : ru_condition r <> []) by (rewrite E; discriminate).
  destruct (rule_parts s r P NZ ltac:(rewrite E; exact L)) as (sc & ss & -> & G & S). rewrite E in G.
  inversion G as [x u G1 E1 E2|x u p l t G1 P1 R E1 E2]; subst; [|inversion R].
  destruct (sep_split _ _ a b sc G1 N N') as (s1 & p & s2 & -> & W & H1 & H2).
  exists s1, p, (s2 ++ ss). split; [now rewrite <- !app_assoc|]. split; [exact W|].
  split; [|apply rule_of_parts; [now constructor|exact S]].
  rewrite <- (app_nil_r s1). apply rule_of_parts; [now constructor|].
  exact (gsa None [] None [] (gp_none _) (gp_none _)).
Qed.

(** what they mean *)
Lemma C114_or_meaning c d x : uts_condition (c ++ d) x = uts_condition c x || uts_condition d x.
Proof. apply existsb_app. Qed.
Lemma C114_and_meaning a b x : uts_condition (and_joined [a] [b]) x = uts_condition [a] x && uts_condition [b] x.
Proof. cbn. unfold uts_and. now rewrite forallb_app, !orb_false_r. Qed.
Lemma and_joined_last c a b d : and_joined (c ++ [a]) (b :: d) = c ++ [a ++ b] ++ d.
Proof. induction c as [|x c IH]; [reflexivity|]. cbn [app and_joined] in *. rewrite IH. destruct c; reflexivity. Qed.
Lemma C114_and_theorem s1 r1 p s2 r2 : parse_plural_rule s1 = Ok r1 -> parse_plural_rule s2 = Ok r2 ->
  ru_condition r1 <> [] -> ru_condition r2 <> [] -> lists_nonempty (ru_condition r1) -> lists_nonempty (ru_condition r2) ->
  ru_samples r1 = None -> word (bs "and") p ->
  exists c a b d, ru_condition r1 = c ++ [a] /\ ru_condition r2 = b :: d /\
    parse_plural_rule (s1 ++ p ++ s2) = Ok (mkRule (c ++ [a ++ b] ++ d) (ru_samples r2)) /\
    forall x, uts_and (a ++ b) x = uts_and a x && uts_and b x.
Proof.
  intros P1 P2 N1 N2 L1 L2 Z W. pose proof (C114_and_lemma s1 r1 p s2 r2 P1 P2 N1 N2 L1 L2 Z W) as H.
  destruct (exists_last N1) as (c & a & E1). destruct (ru_condition r2) as [|b d] eqn:E2; [now elim N2|].
  exists c, a, b, d. split; [exact E1|]. split; [reflexivity|]. rewrite E1, and_joined_last in H. split; [exact H|].
  intro x. unfold uts_and. now rewrite forallb_app.
Qed.
End Width.
