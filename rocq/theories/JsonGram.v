(** * The JSON parser against the grammar *)
From Coq Require Import Lia ZifyBool ZifyN.
From Verif Require Import Base DigitFacts LangId LangIdFacts Json JsonSpec.
Open Scope N_scope.
Ltac Zify.zify_post_hook ::= Z.to_euclidean_division_equations.

(** ** White space *)
Lemma jws_iff c : is_jws c = true <-> In c [32; 9; 10; 13].
Proof. unfold is_jws. cbn [In]. lia. Qed.
Definition no_ws_head (s : bytes) : Prop := match s with c :: _ => is_jws c = false | [] => True end.
Lemma skip_ws_spec s : exists w, s = w ++ skip_ws s /\ ws w /\ no_ws_head (skip_ws s).
Proof.
  unfold skip_ws. induction s as [|c s IH]; cbn [drop_while].
  - exists []. repeat split. constructor.
  - destruct (is_jws c) eqn:E.
    + destruct IH as (w & A & B & C). exists (c :: w). split; [cbn; now rewrite <- A|]. split; [|exact C].
      constructor; [now apply jws_iff|exact B].
    + exists []. repeat split; [constructor|exact E].
Qed.
Lemma skip_ws_app w s : ws w -> no_ws_head s -> skip_ws (w ++ s) = s.
Proof.
  unfold skip_ws. induction 1 as [|c w H W IH]; intros N; cbn [app drop_while].
  - destruct s as [|c s]; [reflexivity|]. cbn [drop_while]. cbn in N. now rewrite N.
  - apply jws_iff in H. rewrite H. now apply IH.
Qed.
Lemma skip_ws_idem s : skip_ws (skip_ws s) = skip_ws s.
Proof.
  destruct (skip_ws_spec s) as (w & A & B & C). now apply (skip_ws_app [] (skip_ws s)); [constructor|].
Qed.
Lemma ws_app a b : ws a -> ws b -> ws (a ++ b).
Proof. unfold ws. intros. now apply Forall_app. Qed.

(** ** Hexadecimal digits and UTF-8 *)
Lemma hex_val_iff c k : hex_val c = Some k <-> hexdigit c k.
Proof.
  unfold hex_val, is_digit. split.
  - intros H. destruct ((48 <=? c) && (c <=? 57)) eqn:A.
    { injection H as <-. replace c with (48 + (c - 48)) at 1 by lia. constructor. lia. }
    destruct ((97 <=? c) && (c <=? 102)) eqn:B.
    { injection H as <-. replace c with (87 + (c - 87)) at 1 by lia. apply hx_lower. lia. }
    destruct ((65 <=? c) && (c <=? 70)) eqn:C; [|discriminate].
    injection H as <-. replace c with (55 + (c - 55)) at 1 by lia. apply hx_upper. lia.
  - intros H. destruct H as [k H|k H|k H].
    + replace ((48 <=? 48 + k) && (48 + k <=? 57)) with true by lia. f_equal. lia.
    + replace ((48 <=? 87 + k) && (87 + k <=? 57)) with false by lia.
      replace ((97 <=? 87 + k) && (87 + k <=? 102)) with true by lia. f_equal. lia.
    + replace ((48 <=? 55 + k) && (55 + k <=? 57)) with false by lia.
      replace ((97 <=? 55 + k) && (55 + k <=? 102)) with false by lia.
      replace ((65 <=? 55 + k) && (55 + k <=? 70)) with true by lia. f_equal. lia.
Qed.
Lemma hexdigit_lt c k : hexdigit c k -> k < 16.
Proof. destruct 1; lia. Qed.
Lemma hex4_sound s n r : hex4 s = Some (n, r) -> exists a b c d w x y z,
  s = a :: b :: c :: d :: r /\ hexdigit a w /\ hexdigit b x /\ hexdigit c y /\ hexdigit d z /\
  n = 4096 * w + 256 * x + 16 * y + z.
Proof.
  unfold hex4. destruct s as [|a [|b [|c [|d s]]]]; try discriminate.
  destruct (hex_val a) as [w|] eqn:A; [|discriminate]. destruct (hex_val b) as [x|] eqn:B; [|discriminate].
  destruct (hex_val c) as [y|] eqn:C; [|discriminate]. destruct (hex_val d) as [z|] eqn:D; [|discriminate].
  intros H. injection H as <- <-. apply hex_val_iff in A, B, C, D. exists a, b, c, d, w, x, y, z.
  repeat split; auto. lia.
Qed.
Lemma hex4_complete a b c d w x y z r : hexdigit a w -> hexdigit b x -> hexdigit c y -> hexdigit d z ->
  hex4 (a :: b :: c :: d :: r) = Some (4096 * w + 256 * x + 16 * y + z, r).
Proof.
  intros A B C D. apply hex_val_iff in A, B, C, D. unfold hex4. rewrite A, B, C, D. do 2 f_equal. lia.
Qed.
Lemma utf8_encode_sound n : n < 1114112 -> utf8 n (utf8_encode n).
Proof.
  intros L. unfold utf8_encode. destruct (n <? 128) eqn:A; [constructor; lia|].
  destruct (n <? 2048) eqn:B.
  { replace n with (64 * (n / 64) + n mod 64) at 1 by (symmetry; apply N.div_mod; lia). constructor; lia. }
  destruct (n <? 65536) eqn:C.
  { replace n with (4096 * (n / 4096) + 64 * ((n / 64) mod 64) + n mod 64) at 1 by lia. constructor; lia. }
  replace n with (262144 * (n / 262144) + 4096 * ((n / 4096) mod 64) + 64 * ((n / 64) mod 64) + n mod 64) at 1 by lia.
  constructor; lia.
Qed.
Lemma utf8_encode_unique n t : utf8 n t -> t = utf8_encode n.
Proof.
  unfold utf8_encode. destruct 1 as [n A|a b A B C|a b c A B C D|a b c d A B C D E].
  - now replace (n <? 128) with true by lia.
  - replace (64 * a + b <? 128) with false by lia. replace (64 * a + b <? 2048) with true by lia.
    repeat f_equal; lia.
  - set (n := 4096 * a + 64 * b + c). replace (n <? 128) with false by lia. replace (n <? 2048) with false by lia.
    replace (n <? 65536) with true by lia. repeat f_equal; lia.
  - set (n := 262144 * a + 4096 * b + 64 * c + d). replace (n <? 128) with false by lia. replace (n <? 2048) with false by lia.
    replace (n <? 65536) with false by lia. repeat f_equal; lia.
Qed.

Ltac Zify.zify_post_hook ::= idtac.

(** ** Strings *)
Definition escape_u (s : bytes) : option bytes :=
  match s with a :: b :: r => if (a =? 92) && (b =? 117) then Some r else None | _ => None end.
Lemma match_escape_u {A} (f : bytes -> A) (z : A) s :
  match s with 92 :: 117 :: r3 => f r3 | _ => z end = match escape_u s with Some r => f r | None => z end.
Proof.
  destruct s as [|a s]; [reflexivity|]. destruct s as [|b s].
  - destruct a as [|p]; [reflexivity|]. do 7 (destruct p as [p|p|]; try reflexivity).
  - unfold escape_u. destruct (a =? 92) eqn:E; [apply N.eqb_eq in E; subst a|].
    + destruct b as [|p]; [reflexivity|]. do 7 (destruct p as [p|p|]; try reflexivity).
    + cbn [andb]. destruct a as [|p]; [reflexivity|]. do 7 (destruct p as [p|p|]; try reflexivity). discriminate E.
Qed.
Definition simple_escape (e : N) : option N :=
  if (e =? 34) || (e =? 92) || (e =? 47) then Some e
  else if e =? 98 then Some 8 else if e =? 102 then Some 12 else if e =? 110 then Some 10
  else if e =? 114 then Some 13 else if e =? 116 then Some 9 else None.
Lemma simple_escape_iff e b : simple_escape e = Some b <->
  In (e, b) [(34, 34); (92, 92); (47, 47); (98, 8); (102, 12); (110, 10); (114, 13); (116, 9)].
Proof.
  unfold simple_escape. split.
  - intros H. cbn [In]. destruct ((e =? 34) || (e =? 92) || (e =? 47)) eqn:A.
    { injection H as <-. assert (e = 34 \/ e = 92 \/ e = 47) as [-> | [-> | ->]] by lia; tauto. }
    destruct (e =? 98) eqn:B; [apply N.eqb_eq in B; injection H as <-; subst; tauto|].
    destruct (e =? 102) eqn:C; [apply N.eqb_eq in C; injection H as <-; subst; tauto|].
    destruct (e =? 110) eqn:D; [apply N.eqb_eq in D; injection H as <-; subst; tauto|].
    destruct (e =? 114) eqn:E; [apply N.eqb_eq in E; injection H as <-; subst; tauto|].
    destruct (e =? 116) eqn:F; [apply N.eqb_eq in F; injection H as <-; subst; tauto|discriminate].
  - cbn [In]. intros H. repeat (destruct H as [H|H]; [injection H as <- <-; reflexivity|]). destruct H.
Qed.
Definition sput (p : bytes) (x : option (option bytes * bytes)) : option (option bytes * bytes) :=
  match x with Some (t, r') => Some (cons_opt p t, r') | None => None end.
Definition sbad (x : option (option bytes * bytes)) : option (option bytes * bytes) :=
  match x with Some (_, r') => Some (None, r') | None => None end.
Lemma sput_some p x o r : sput p x = Some (o, r) -> exists t, x = Some (t, r) /\ o = cons_opt p t.
Proof. destruct x as [[t r']|]; [|discriminate]. cbn [sput]. intros H. assert (A := f_equal (option_map fst) H). assert (B := f_equal (option_map snd) H). cbn [option_map fst snd] in A, B. injection B as ->. exists t. split; [reflexivity|congruence]. Qed.
Lemma sbad_some x o r : sbad x = Some (o, r) -> exists t, x = Some (t, r) /\ o = None.
Proof. destruct x as [[t r']|]; [|discriminate]. cbn [sbad]. intros H. injection H as <- <-. now exists t. Qed.
Definition is_high (n : N) : bool := (55296 <=? n) && (n <? 56320).
Definition is_low (n : N) : bool := (56320 <=? n) && (n <? 57344).
Lemma parse_string_eq x k s : parse_string (x :: k) s =
  match s with
  | [] => None
  | c :: r =>
      if c =? 34 then Some (Some [], r)
      else if c =? 92 then
        match r with
        | [] => None
        | e :: r1 =>
            match simple_escape e with
            | Some b => sput [b] (parse_string k r1)
            | None =>
                if e =? 117 then
                  match hex4 r1 with
                  | None => None
                  | Some (n, r2) =>
                      if is_high n then
                        match escape_u r2 with
                        | Some r3 =>
                            match hex4 r3 with
                            | Some (m, r4) =>
                                if is_low m then sput (utf8_encode (65536 + (n - 55296) * 1024 + (m - 56320))) (parse_string k r4)
                                else sbad (parse_string k r2)
                            | None => None
                            end
                        | None => sbad (parse_string k r2)
                        end
                      else if is_low n then sbad (parse_string k r2)
                      else sput (utf8_encode n) (parse_string k r2)
                  end
                else None
            end
        end
      else if c <? 32 then None
      else sput [c] (parse_string k r)
  end.
Proof.
  cbn [parse_string]. destruct s as [|c r]; [reflexivity|]. destruct (c =? 34); [reflexivity|].
  destruct (c =? 92); [|reflexivity]. destruct r as [|e r1]; [reflexivity|].
  unfold simple_escape. destruct ((e =? 34) || (e =? 92) || (e =? 47)); [reflexivity|].
  destruct (e =? 98); [reflexivity|]. destruct (e =? 102); [reflexivity|]. destruct (e =? 110); [reflexivity|].
  destruct (e =? 114); [reflexivity|]. destruct (e =? 116); [reflexivity|]. destruct (e =? 117); [|reflexivity].
  destruct (hex4 r1) as [[n r2]|]; [|reflexivity]. fold (is_high n) (is_low n). destruct (is_high n); [|reflexivity].
  rewrite match_escape_u. reflexivity.
Qed.

Lemma high_iff n : is_high n = true <-> high n.
Proof. unfold is_high, high. lia. Qed.
Lemma low_iff n : is_low n = true <-> low n.
Proof. unfold is_low, low. lia. Qed.
Lemma pair_bound n m : high n -> low m -> 65536 + 1024 * (n - 55296) + (m - 56320) < 1114112.
Proof. unfold high, low. lia. Qed.
Lemma pair_comm n m : 65536 + (n - 55296) * 1024 + (m - 56320) = 65536 + 1024 * (n - 55296) + (m - 56320).
Proof. lia. Qed.
Lemma code_bound a b c d w x y z : hexdigit a w -> hexdigit b x -> hexdigit c y -> hexdigit d z -> 4096 * w + 256 * x + 16 * y + z < 65536.
Proof. intros A B C D. apply hexdigit_lt in A, B, C, D. lia. Qed.
Lemma escape_u_sound s r : escape_u s = Some r -> s = 92 :: 117 :: r.
Proof.
  destruct s as [|a [|b s]]; try discriminate. cbn [escape_u]. destruct ((a =? 92) && (b =? 117)) eqn:E; [|discriminate].
  intros H. injection H as <-. apply andb_prop in E as [A B]. apply N.eqb_eq in A, B. now subst.
Qed.
(** a sequence starting with a low surrogate is written as one *)
Lemma starts_low_text us ts r : utexts us ts -> starts_low us -> exists r3 m r4,
  escape_u (ts ++ r) = Some r3 /\ hex4 r3 = Some (m, r4) /\ is_low m = true.
Proof.
  intros T (m & us' & -> & L). inversion T as [|u t us2 ts2 U T2]; subst. inversion U as [| |a b c d w x y z A B C D]; subst.
  exists (a :: b :: c :: d :: ts2 ++ r), (4096 * w + 256 * x + 16 * y + z), (ts2 ++ r).
  split; [reflexivity|]. split; [now apply hex4_complete|now apply low_iff].
Qed.
Lemma starts_low_iff us ts r r3 m r4 : utexts us ts -> escape_u (ts ++ 34 :: r) = Some r3 -> hex4 r3 = Some (m, r4) ->
  exists us' ts', us = UCode m :: us' /\ utexts us' ts' /\ r4 = ts' ++ 34 :: r.
Proof.
  intros T E H. destruct T as [|u t us ts U T]; [apply escape_u_sound in E; discriminate E|]. destruct U as [b X Y Z|e b I|a b c d w x y z A B C D].
  - cbn [app] in E. apply escape_u_sound in E. injection E as -> _. contradiction.
  - cbn [app] in E. apply escape_u_sound in E. injection E as -> _. apply simple_escape_iff in I. discriminate I.
  - cbn [app] in E. apply escape_u_sound in E. injection E as <-. rewrite (hex4_complete _ _ _ _ _ _ _ _ _ A B C D) in H.
    injection H as <- <-. now exists us, ts.
Qed.

Lemma parse_string_sound fuel : forall s o r, parse_string fuel s = Some (o, r) ->
  exists us ts, s = ts ++ 34 :: r /\ utexts us ts /\ decodes us o.
Proof.
  induction fuel as [|x k IH]; [discriminate|]. intros s o r H. rewrite parse_string_eq in H.
  destruct s as [|c s]; [discriminate|].
  destruct (c =? 34) eqn:E1. { apply N.eqb_eq in E1. injection H as <- <-. subst c. exists [], []. repeat split; constructor. }
  destruct (c =? 92) eqn:E2.
  2:{ destruct (c <? 32) eqn:E3; [discriminate|]. destruct (parse_string k s) as [[t r']|] eqn:P; [|discriminate].
      cbn [sput] in H. injection H as <- <-. apply IH in P as (us & ts & -> & U & D). exists (UByte c :: us), (c :: ts).
      split; [reflexivity|]. split; [|now apply (de_byte c us t)]. change (c :: ts) with ([c] ++ ts). constructor; [|exact U].
      constructor; lia. }
  apply N.eqb_eq in E2. subst c. destruct s as [|e r1]; [discriminate|].
  destruct (simple_escape e) as [b|] eqn:S.
  { destruct (parse_string k r1) as [[t r']|] eqn:P; [|discriminate]. cbn [sput] in H. injection H as <- <-.
    apply IH in P as (us & ts & -> & U & D). exists (UByte b :: us), ([92; e] ++ ts). split; [reflexivity|].
    split; [constructor; [constructor; now apply simple_escape_iff|exact U]|now apply (de_byte b us t)]. }
  destruct (e =? 117) eqn:E4; [|discriminate]. apply N.eqb_eq in E4. subst e.
  destruct (hex4 r1) as [[n r2]|] eqn:X; [|discriminate].
  apply hex4_sound in X as (a & b & c & d & w & x1 & y & z & -> & A & B & C & D & En).
  assert (U1 : utext (UCode n) [92; 117; a; b; c; d]) by (rewrite En; now constructor).
  assert (Ln : n < 65536) by (rewrite En; now apply (code_bound a b c d)). clear En.
  destruct (is_high n) eqn:Hn.
  - assert (BAD : match escape_u r2 with Some r3 => match hex4 r3 with Some (m, _) => is_low m = false | None => False end | None => True end ->
      sbad (parse_string k r2) = Some (o, r) -> exists us ts, 92 :: 117 :: a :: b :: c :: d :: r2 = ts ++ 34 :: r /\ utexts us ts /\ decodes us o).
    { intros N E. destruct (parse_string k r2) as [[t r']|] eqn:P; [|discriminate]. cbn [sbad] in E. injection E as <- <-.
      apply IH in P as (us & ts & -> & U & De). exists (UCode n :: us), ([92; 117; a; b; c; d] ++ ts).
      split; [reflexivity|]. split; [now constructor|]. apply de_lone_high; [now apply high_iff|].
      intros L. destruct (starts_low_text us ts (34 :: r') U L) as (r3 & m & r4 & F & G & I). rewrite F, G in N. congruence. }
    destruct (escape_u r2) as [r3|] eqn:Q; [|now apply BAD]. destruct (hex4 r3) as [[m r4]|] eqn:X4; [|discriminate].
    destruct (is_low m) eqn:Lm; [|now apply BAD]. clear BAD.
    apply sput_some in H as (t & P & ->). rename r into r'.
    apply IH in P as (us & ts & -> & U & De). apply escape_u_sound in Q.
    apply hex4_sound in X4 as (a2 & b2 & c2 & d2 & w2 & x2 & y2 & z2 & -> & A2 & B2 & C2 & D2 & Em). subst r2.
    exists (UCode n :: UCode m :: us), ([92; 117; a; b; c; d] ++ [92; 117; a2; b2; c2; d2] ++ ts).
    split; [reflexivity|]. split; [constructor; [exact U1|]; constructor; [rewrite Em; now constructor|exact U]|].
    apply high_iff in Hn. apply low_iff in Lm. apply de_pair; auto.
    rewrite pair_comm. apply utf8_encode_sound. now apply pair_bound.
  - destruct (is_low n) eqn:Lm.
    + destruct (parse_string k r2) as [[t r']|] eqn:P; [|discriminate]. cbn [sbad] in H. injection H as <- <-.
      apply IH in P as (us & ts & -> & U & De). exists (UCode n :: us), ([92; 117; a; b; c; d] ++ ts).
      split; [reflexivity|]. split; [now constructor|]. apply de_lone_low. now apply low_iff.
    + destruct (parse_string k r2) as [[t r']|] eqn:P; [|discriminate]. cbn [sput] in H. injection H as <- <-.
      apply IH in P as (us & ts & -> & U & De). exists (UCode n :: us), ([92; 117; a; b; c; d] ++ ts).
      split; [reflexivity|]. split; [now constructor|]. apply de_bmp; [rewrite <- high_iff; congruence|rewrite <- low_iff; congruence| |exact De].
      apply utf8_encode_sound. eapply N.lt_trans; [exact Ln|reflexivity].
Qed.

Lemma decodes_total us ts : utexts us ts -> exists o, decodes us o.
Proof.
  remember (List.length us) as n eqn:L. assert (L' : (List.length us <= n)%nat) by lia. clear L. revert us ts L'.
  induction n as [|n IH]; intros us ts L T.
  - destruct us; [|cbn in L; lia]. exists (Some []). constructor.
  - destruct T as [|u t us ts U T]; [exists (Some []); constructor|]. cbn [List.length] in L.
    destruct (IH us ts ltac:(lia) T) as (o & D). destruct u as [b|m].
    + eexists. constructor. exact D.
    + destruct (is_high m) eqn:H; [|destruct (is_low m) eqn:Lo].
      * apply high_iff in H. inversion T as [|u2 t2 us2 ts2 U2 T2]; subst.
        { exists None. apply de_lone_high; [exact H|]. intros (x & y & E & _). discriminate E. }
        destruct u2 as [b|m2].
        { exists None. apply de_lone_high; [exact H|]. intros (x & y & E & _). discriminate E. }
        destruct (is_low m2) eqn:L2.
        { apply low_iff in L2. cbn [List.length] in L. destruct (IH us2 ts2 ltac:(lia) T2) as (o2 & D2). eexists. apply de_pair; [exact H|exact L2| |exact D2].
          apply utf8_encode_sound. now apply pair_bound. }
        { exists None. apply de_lone_high; [exact H|]. intros (x & y & E & Q). injection E as <- <-. apply low_iff in Q. congruence. }
      * exists None. apply de_lone_low. now apply low_iff.
      * eexists. apply de_bmp; [rewrite <- high_iff; congruence|rewrite <- low_iff; congruence| |exact D].
        apply utf8_encode_sound. inversion U as [| |a b c d w x y z A B C Dd]; subst. pose proof (code_bound _ _ _ _ _ _ _ _ A B C Dd). eapply N.lt_trans; [eassumption|reflexivity].
Qed.

Lemma parse_string_complete us : forall ts o r fuel, utexts us ts -> decodes us o ->
  (List.length (ts ++ 34%N :: r) < List.length fuel)%nat -> parse_string fuel (ts ++ 34 :: r) = Some (o, r).
Proof.
  remember (List.length us) as n eqn:L. assert (L' : (List.length us <= n)%nat) by lia. clear L. revert us L'.
  induction n as [|n IH]; intros us L ts o r fuel T D F.
  - destruct us; [|cbn in L; lia]. inversion T; subst. inversion D; subst. destruct fuel as [|x k]; [cbn in F; lia|].
    rewrite parse_string_eq. reflexivity.
  - destruct T as [|u t us ts U T].
    { inversion D; subst. destruct fuel as [|x k]; [cbn in F; lia|]. rewrite parse_string_eq. reflexivity. }
    cbn [List.length] in L. destruct fuel as [|x k]; [cbn in F; lia|]. rewrite <- app_assoc in *.
    assert (Fk : (List.length (ts ++ 34%N :: r) < List.length k)%nat).
    { rewrite app_length in F. cbn [List.length] in F. assert (1 <= List.length t)%nat by (destruct U; cbn; lia). lia. }
    rewrite parse_string_eq. destruct U as [b X Y Z|e b I|a b c d w x1 y z A B C Dd].
    + cbn [app]. replace (b =? 34) with false by lia. replace (b =? 92) with false by lia. replace (b <? 32) with false by lia.
      inversion D as [|? ? o' D'| | | |]; subst. rewrite (IH us ltac:(lia) ts o' r k T D' Fk). reflexivity.
    + cbn [app]. apply simple_escape_iff in I. change (92 =? 34) with false. change (92 =? 92) with true. cbn iota. rewrite I.
      inversion D as [|? ? o' D'| | | |]; subst. rewrite (IH us ltac:(lia) ts o' r k T D' Fk). reflexivity.
    + cbn [app]. change (92 =? 34) with false. change (92 =? 92) with true. change (simple_escape 117) with (@None N).
      change (117 =? 117) with true. cbn iota. rewrite (hex4_complete _ _ _ _ _ _ _ _ _ A B C Dd).
      set (m := 4096 * w + 256 * x1 + 16 * y + z) in *. destruct (decodes_total us ts T) as (o1 & D1).
      pose proof (IH us ltac:(lia) ts o1 r k T D1 Fk) as P.
      inversion D as [| |? t' ? o' Hh Ll V D'|? m2 t' us2 o' Hh Ll V D'|? ? Hh NS|? ? Ll]; subst; clear D.
      * rewrite <- high_iff in Hh. rewrite <- low_iff in Ll. apply not_true_is_false in Hh, Ll. rewrite Hh, Ll.
        apply utf8_encode_unique in V. rewrite <- V. rewrite (IH us ltac:(lia) ts o' r k T D' Fk). reflexivity.
      * apply high_iff in Hh. rewrite Hh. inversion T as [|u2 t2 us3 ts2 U2 T2]; subst.
        destruct (starts_low_text (UCode m2 :: us2) (t2 ++ ts2) (34 :: r) T) as (r3 & m3 & r4 & E1 & E2 & E3).
        { exists m2, us2. now split. }
        rewrite E1, E2, E3. destruct (starts_low_iff _ _ _ _ _ _ T E1 E2) as (us' & ts' & Eu & T' & ->). injection Eu as <- <-.
        apply utf8_encode_unique in V. rewrite pair_comm.
        rewrite <- V. cbn [List.length] in L. rewrite (IH us2 ltac:(lia) ts' o' r k T' D'); [reflexivity|].
        apply escape_u_sound in E1. apply hex4_sound in E2 as (a2 & b2 & c2 & d2 & w2 & x2 & y2 & z2 & -> & _). rewrite E1 in Fk.
        cbn [List.length] in Fk. lia.
      * apply high_iff in Hh. rewrite Hh, P. cbn [sbad]. destruct (escape_u (ts ++ 34 :: r)) as [r3|] eqn:E1; [|reflexivity].
        destruct (hex4 r3) as [[m3 r4]|] eqn:E2.
        { destruct (is_low m3) eqn:E3; [|reflexivity]. exfalso. apply NS.
          destruct (starts_low_iff _ _ _ _ _ _ T E1 E2) as (us' & ts' & -> & _). exists m3, us'. split; [reflexivity|now apply low_iff]. }
        { exfalso. clear P. destruct T as [|u2 t2 us2 ts2 U2 T2]; [apply escape_u_sound in E1; discriminate E1|].
          destruct U2 as [b2 X2 Y2 Z2|e b2 I|a2 b2 c2 d2 w2 x2 y2 z2 A2 B2 C2 D2]; cbn [app] in E1; apply escape_u_sound in E1.
          - injection E1 as -> _. contradiction.
          - injection E1 as -> _. apply simple_escape_iff in I. discriminate I.
          - injection E1 as <-. rewrite (hex4_complete _ _ _ _ _ _ _ _ _ A2 B2 C2 D2) in E2. discriminate E2. }
      * apply low_iff in Ll. assert (Hh : is_high m = false) by (unfold is_high, is_low in *; lia). rewrite Hh, Ll, P. reflexivity.
Qed.

(** ** Numbers *)
Definition dig (c : N) : Prop := 48 <= c <= 57.
Lemma dig_iff c : is_digit c = true <-> dig c.
Proof. unfold is_digit, dig. lia. Qed.
Definition no_digit_head (s : bytes) : Prop := match s with c :: _ => ~ dig c | [] => True end.
Lemma digits_span s : exists d, s = d ++ drop_while is_digit s /\ Forall dig d /\ no_digit_head (drop_while is_digit s).
Proof.
  induction s as [|c s IH]; cbn [drop_while].
  - exists []. repeat split. constructor.
  - destruct (is_digit c) eqn:E.
    + destruct IH as (d & A & B & C). exists (c :: d). split; [cbn; now rewrite <- A|]. split; [|exact C].
      constructor; [now apply dig_iff|exact B].
    + exists []. repeat split; [constructor|]. cbn. rewrite <- dig_iff. congruence.
Qed.
Lemma digits_drop d s : Forall dig d -> no_digit_head s -> drop_while is_digit (d ++ s) = s.
Proof.
  induction 1 as [|c d H W IH]; intros N; cbn [app drop_while].
  - destruct s as [|c s]; [reflexivity|]. cbn [drop_while]. cbn in N. rewrite <- dig_iff in N. apply not_true_is_false in N. now rewrite N.
  - apply dig_iff in H. rewrite H. now apply IH.
Qed.
(** the four steps of [parse_num] *)
Definition pn_sign (s : bytes) : bytes := match s with c :: r => if c =? 45 then r else s | [] => s end.
Definition pn_int (s1 : bytes) : option bytes :=
  match s1 with
  | c :: r => if c =? 48 then Some r else if is_digit c then Some (drop_while is_digit r) else None
  | [] => None
  end.
Definition pn_digits (r : bytes) : option bytes :=
  match r with d :: _ => if is_digit d then Some (drop_while is_digit r) else None | [] => None end.
Definition pn_frac (s2 : bytes) : option bytes :=
  match s2 with c :: r => if c =? 46 then pn_digits r else Some s2 | [] => Some s2 end.
Definition pn_exp (s3 : bytes) : option bytes :=
  match s3 with
  | c :: r =>
      if (c =? 101) || (c =? 69) then
        pn_digits (match r with d :: r' => if (d =? 43) || (d =? 45) then r' else r | [] => r end)
      else if is_digit c then None else Some s3
  | [] => Some s3
  end.
Lemma parse_num_eq s : parse_num s =
  match pn_int (pn_sign s) with
  | None => None
  | Some s2 => match pn_frac s2 with None => None | Some s3 => pn_exp s3 end
  end.
Proof. reflexivity. Qed.
Lemma pn_digits_sound r r' : pn_digits r = Some r' -> exists d, r = d ++ r' /\ digits1 d /\ no_digit_head r'.
Proof.
  destruct r as [|c r]; [discriminate|]. unfold pn_digits. destruct (is_digit c) eqn:E; [|discriminate].
  intros H. assert (X : r' = drop_while is_digit (c :: r)) by congruence. clear H. subst r'.
  destruct (digits_span (c :: r)) as (d & A & B & C). exists d. split; [exact A|]. split; [|exact C]. split; [|exact B].
  intros ->. cbn [app] in A. cbn [drop_while] in A, C. rewrite E in A, C. rewrite <- A in C. apply C. now apply dig_iff.
Qed.
Lemma pn_digits_complete d r : digits1 d -> no_digit_head r -> pn_digits (d ++ r) = Some r.
Proof.
  intros [A B] N. destruct d as [|c d]; [contradiction|]. cbn [app pn_digits]. inversion B as [|? ? X Y]; subst.
  apply dig_iff in X. rewrite X. f_equal. now apply (digits_drop (c :: d) r).
Qed.
Lemma parse_num_sound s r : parse_num s = Some r -> exists t, s = t ++ r /\ jnumber t.
Proof.
  rewrite parse_num_eq. intros H. destruct (pn_int (pn_sign s)) as [s2|] eqn:I; [|discriminate].
  destruct (pn_frac s2) as [s3|] eqn:F; [|discriminate].
  assert (S : exists sign, s = sign ++ pn_sign s /\ (sign = [] \/ sign = [45])).
  { destruct s as [|c s]; [exists []; auto|]. cbn [pn_sign]. destruct (c =? 45) eqn:E; [|exists []; auto].
    apply N.eqb_eq in E. subst c. exists [45]. auto. }
  destruct S as (sign & S & Sg).
  assert (J : exists i, pn_sign s = i ++ s2 /\ jint i).
  { destruct (pn_sign s) as [|c q]; [discriminate|]. cbn [pn_int] in I. destruct (c =? 48) eqn:E.
    - apply N.eqb_eq in E. injection I as <-. subst c. exists [48]. split; [reflexivity|constructor].
    - destruct (is_digit c) eqn:D; [|discriminate]. assert (X : s2 = drop_while is_digit q) by congruence. subst s2.
      destruct (digits_span q) as (d & A & B & C). exists (c :: d). split; [cbn [app]; now rewrite <- A|].
      apply dig_iff in D. unfold dig in D. constructor; [lia|exact B]. }
  destruct J as (i & J & Ji).
  assert (K : exists f, s2 = f ++ s3 /\ jfrac f).
  { destruct s2 as [|c q]; cbn [pn_frac] in F; [injection F as <-; exists []; split; [reflexivity|constructor]|].
    destruct (c =? 46) eqn:E; [|injection F as <-; exists []; split; [reflexivity|constructor]].
    apply N.eqb_eq in E. subst c. apply pn_digits_sound in F as (d & -> & D & _). exists (46 :: d). split; [reflexivity|now constructor]. }
  destruct K as (f & K & Kf).
  assert (L : exists x, s3 = x ++ r /\ jexp x).
  { destruct s3 as [|c q]; cbn [pn_exp] in H; [injection H as <-; exists []; split; [reflexivity|constructor]|].
    destruct ((c =? 101) || (c =? 69)) eqn:E.
    - assert (Ec : c = 101 \/ c = 69) by lia. destruct q as [|d q]; [discriminate|].
      destruct ((d =? 43) || (d =? 45)) eqn:Dd; apply pn_digits_sound in H as (g & Eg & G & _).
      + exists (c :: [d] ++ g). split; [cbn [app]; now rewrite Eg|]. constructor; auto. right. assert (d = 43 \/ d = 45) as [-> | ->] by lia; auto.
      + exists (c :: [] ++ g). split; [cbn [app]; now rewrite Eg|]. constructor; auto.
    - destruct (is_digit c); [discriminate|]. injection H as <-. exists []. split; [reflexivity|constructor]. }
  destruct L as (x & L & Lx). exists (sign ++ i ++ f ++ x). split; [|now constructor].
  rewrite <- !app_assoc, <- L, <- K, <- J. exact S.
Qed.
Definition stops (s : bytes) : Prop := match s with c :: _ => ~ dig c /\ c <> 46 /\ c <> 101 /\ c <> 69 | [] => True end.
Lemma stops_no_digit s : stops s -> no_digit_head s.
Proof. destruct s; cbn; tauto. Qed.
Lemma parse_num_complete t r : jnumber t -> stops r -> parse_num (t ++ r) = Some r.
Proof.
  intros N S. destruct N as [sign i f x Sg I F X]. rewrite parse_num_eq, <- !app_assoc.
  assert (E1 : pn_sign (sign ++ i ++ f ++ x ++ r) = i ++ f ++ x ++ r).
  { destruct Sg as [-> | ->]; [|reflexivity]. destruct I as [|c q C Q]; [reflexivity|]. cbn [app pn_sign].
    now replace (c =? 45) with false by lia. }
  rewrite E1.
  assert (X0 : pn_exp (x ++ r) = Some r).
  { destruct X as [|e sg d E G D].
    - cbn [app]. destruct r as [|c r]; [reflexivity|]. cbn [pn_exp]. cbn in S. destruct S as (A & B & C & D).
      replace ((c =? 101) || (c =? 69)) with false by lia. rewrite <- dig_iff in A. apply not_true_is_false in A. now rewrite A.
    - cbn [app pn_exp]. replace ((e =? 101) || (e =? 69)) with true by lia. rewrite <- app_assoc.
      match goal with |- pn_digits ?z = _ => assert (Z : z = d ++ r) end.
      { destruct G as [-> | [-> | ->]]; [|reflexivity|reflexivity]. destruct D as [D1 D2]. destruct d as [|c d]; [contradiction|].
        cbn [app]. inversion D2; subst. now replace ((c =? 43) || (c =? 45)) with false by lia. }
      rewrite Z. apply pn_digits_complete; [exact D|now apply stops_no_digit]. }
  assert (NX : no_digit_head (x ++ r)).
  { destruct X as [|e sg d E G D]; [now apply stops_no_digit|]. cbn. unfold dig. lia. }
  assert (F0 : pn_frac (f ++ x ++ r) = Some (x ++ r)).
  { destruct F as [|d D].
    - cbn [app]. destruct X as [|e sg d E G D].
      + cbn [app]. destruct r as [|c r]; [reflexivity|]. cbn [pn_frac]. cbn in S. now replace (c =? 46) with false by lia.
      + cbn [app pn_frac]. now replace (e =? 46) with false by lia.
    - cbn [app pn_frac]. change (46 =? 46) with true. cbn iota. now apply pn_digits_complete. }
  assert (NF : no_digit_head (f ++ x ++ r)).
  { destruct F as [|d D]; [exact NX|]. cbn. unfold dig. lia. }
  assert (I0 : pn_int (i ++ f ++ x ++ r) = Some (f ++ x ++ r)).
  { destruct I as [|c q C Q]; [reflexivity|]. cbn [app pn_int]. replace (c =? 48) with false by lia.
    assert (Dc : is_digit c = true) by (unfold is_digit; lia). rewrite Dc. f_equal. now apply digits_drop. }
  now rewrite I0, F0, X0.
Qed.

(** ** Values *)
Definition head_is (c : N) (s : bytes) : option bytes :=
  match s with x :: r => if x =? c then Some r else None | [] => None end.
Lemma head_is_sound c s r : head_is c s = Some r -> s = c :: r.
Proof. destruct s as [|x s]; [discriminate|]. cbn [head_is]. destruct (x =? c) eqn:E; [|discriminate]. apply N.eqb_eq in E. intros H. injection H as <-. now subst. Qed.
Lemma head_is_complete c r : head_is c (c :: r) = Some r.
Proof. cbn [head_is]. now rewrite N.eqb_refl. Qed.
Lemma head_is_other c d r : c <> d -> head_is c (d :: r) = None.
Proof. intros H. cbn [head_is]. now replace (d =? c) with false by lia. Qed.
Ltac head_case l :=
  let c := fresh "c" in let p := fresh "p" in
  destruct l as [|c ?]; [reflexivity|]; destruct c as [|p]; [reflexivity|];
  do 7 (destruct p as [p|p|]; try reflexivity).
Lemma match34 {A} (f : bytes -> A) (z : A) l :
  match l with 34 :: r => f r | _ => z end = match head_is 34 l with Some r => f r | None => z end.
Proof. head_case l. Qed.
Lemma match58 {A} (f : bytes -> A) (z : A) l :
  match l with 58 :: r => f r | _ => z end = match head_is 58 l with Some r => f r | None => z end.
Proof. head_case l. Qed.
Lemma match44_125 {A} (f g : bytes -> A) (z : A) l :
  match l with 44 :: r => f r | 125 :: r => g r | _ => z end =
  match head_is 44 l with Some r => f r | None => match head_is 125 l with Some r => g r | None => z end end.
Proof. head_case l. Qed.
Lemma match44_93 {A} (f g : bytes -> A) (z : A) l :
  match l with 44 :: r => f r | 93 :: r => g r | _ => z end =
  match head_is 44 l with Some r => f r | None => match head_is 93 l with Some r => g r | None => z end end.
Proof. head_case l. Qed.

Definition literal (s : bytes) : option (json * bytes) :=
  match strip (bs "null") s with
  | Some r1 => Some (JNull, r1)
  | None =>
  match strip (bs "true") s with
  | Some r1 => Some (JBool true, r1)
  | None =>
  match strip (bs "false") s with
  | Some r1 => Some (JBool false, r1)
  | None => match parse_num s with Some r1 => Some (JNum, r1) | None => None end
  end end end.
Lemma parse_value_eq x k s : parse_value (x :: k) s =
  match skip_ws s with
  | [] => None
  | c :: r =>
      if c =? 34 then match parse_string k r with Some (t, r') => Some (JStr t, r') | None => None end
      else if c =? 123 then
        match head_is 125 (skip_ws r) with
        | Some r1 => Some (JObj [], r1)
        | None => match parse_members k (skip_ws r) with Some (l, r2) => Some (JObj l, r2) | None => None end
        end
      else if c =? 91 then
        match head_is 93 (skip_ws r) with
        | Some r1 => Some (JArr [], r1)
        | None =>
            match parse_value k (skip_ws r) with
            | Some (v, r2) => match parse_elems k r2 with Some (l, r3) => Some (JArr (v :: l), r3) | None => None end
            | None => None
            end
        end
      else literal (c :: r)
  end.
Proof.
  cbn [parse_value]. destruct (skip_ws s) as [|c r]; [reflexivity|]. destruct (c =? 34); [reflexivity|].
  destruct (c =? 123); [head_case (skip_ws r)|]. destruct (c =? 91); [head_case (skip_ws r)|]. reflexivity.
Qed.
Lemma parse_members_eq x k s : parse_members (x :: k) s =
  match head_is 34 (skip_ws s) with
  | Some r =>
      match parse_string k r with
      | Some (key, r1) =>
          match head_is 58 (skip_ws r1) with
          | Some r2 =>
              match parse_value k r2 with
              | Some (v, r3) =>
                  match head_is 44 (skip_ws r3) with
                  | Some r4 => match parse_members k r4 with Some (l, r5) => Some ((key, v) :: l, r5) | None => None end
                  | None => match head_is 125 (skip_ws r3) with Some r4 => Some ([(key, v)], r4) | None => None end
                  end
              | None => None
              end
          | None => None
          end
      | None => None
      end
  | None => None
  end.
Proof.
  cbn [parse_members]. rewrite match34. destruct (head_is 34 (skip_ws s)) as [r|]; [|reflexivity].
  destruct (parse_string k r) as [[key r1]|]; [|reflexivity]. rewrite match58. destruct (head_is 58 (skip_ws r1)) as [r2|]; [|reflexivity].
  destruct (parse_value k r2) as [[v r3]|]; [|reflexivity]. now rewrite match44_125.
Qed.
Lemma parse_elems_eq x k s : parse_elems (x :: k) s =
  match head_is 44 (skip_ws s) with
  | Some r =>
      match parse_value k r with
      | Some (v, r1) => match parse_elems k r1 with Some (l, r2) => Some (v :: l, r2) | None => None end
      | None => None
      end
  | None => match head_is 93 (skip_ws s) with Some r => Some ([], r) | None => None end
  end.
Proof. cbn [parse_elems]. now rewrite match44_93. Qed.

Lemma strip_sound p s : forall r, strip p s = Some r -> s = p ++ r.
Proof.
  revert s. induction p as [|x p IH]; intros s r H; [destruct s; cbn in H; cbn; congruence|].
  destruct s as [|y s]; [discriminate|]. cbn [strip] in H. destruct (x =? y) eqn:E; [|discriminate]. apply N.eqb_eq in E. subst y.
  apply IH in H. now subst.
Qed.
Lemma strip_complete p r : strip p (p ++ r) = Some r.
Proof. induction p as [|x p IH]; [now destruct r|]. cbn [app strip]. now rewrite N.eqb_refl. Qed.
Lemma literal_sound s v r : literal s = Some (v, r) -> exists t, s = t ++ r /\ jval v t.
Proof.
  unfold literal. destruct (strip (bs "null") s) as [r1|] eqn:A.
  { intros H. injection H as <- <-. apply strip_sound in A. exists (bs "null"). split; [exact A|constructor]. }
  destruct (strip (bs "true") s) as [r1|] eqn:B.
  { intros H. injection H as <- <-. apply strip_sound in B. exists (bs "true"). split; [exact B|constructor]. }
  destruct (strip (bs "false") s) as [r1|] eqn:C.
  { intros H. injection H as <- <-. apply strip_sound in C. exists (bs "false"). split; [exact C|constructor]. }
  destruct (parse_num s) as [r1|] eqn:D; [|discriminate].
  intros H. injection H as <- <-. apply parse_num_sound in D as (t & E & J). exists t. split; [exact E|now constructor].
Qed.

Definition value_sound (fuel : bytes) : Prop := forall s v r, parse_value fuel s = Some (v, r) ->
  exists w t, s = w ++ t ++ r /\ ws w /\ jval v t.
Definition members_sound (fuel : bytes) : Prop := forall s l r, parse_members fuel s = Some (l, r) ->
  exists t, s = t ++ 125 :: r /\ jmembers l t.
Definition elems_sound (fuel : bytes) : Prop := forall s l r, parse_elems fuel s = Some (l, r) ->
  (l = [] /\ exists w, s = w ++ 93 :: r /\ ws w) \/
  (exists w t, s = w ++ 44 :: t ++ 93 :: r /\ ws w /\ jelems l t).
Lemma sound_all fuel : value_sound fuel /\ members_sound fuel /\ elems_sound fuel.
Proof.
  induction fuel as [|x k (IV & IM & IE)]; [repeat split; intros s l r H; discriminate H|]. repeat split.
  - intros s v r H. rewrite parse_value_eq in H. destruct (skip_ws_spec s) as (w & S & W & NH). exists w.
    destruct (skip_ws s) as [|c q]; [discriminate|]. subst s. clear NH.
    assert (G : exists t, c :: q = t ++ r /\ jval v t).
    2:{ destruct G as (t & -> & J). exists t. auto. }
    destruct (c =? 34) eqn:E1.
    { apply N.eqb_eq in E1. subst c. destruct (parse_string k q) as [[t r']|] eqn:P; [|discriminate].
      injection H as <- <-. apply parse_string_sound in P as (us & ts & -> & U & D). exists (34 :: ts ++ [34]).
      split; [cbn [app]; now rewrite <- app_assoc|]. constructor. now apply (js us). }
    destruct (c =? 123) eqn:E2.
    { apply N.eqb_eq in E2. subst c. destruct (skip_ws_spec q) as (w1 & S & W1 & _).
      destruct (head_is 125 (skip_ws q)) as [r1|] eqn:Hd.
      - injection H as <- <-. apply head_is_sound in Hd. rewrite Hd in S. exists (123 :: w1 ++ [125]). split; [cbn [app]; now rewrite <- app_assoc, S|].
        now constructor.
      - destruct (parse_members k (skip_ws q)) as [[l r2]|] eqn:P; [|discriminate]. injection H as <- <-.
        apply IM in P as (t & E & J). rewrite E in S. exists (123 :: (w1 ++ t) ++ [125]). split; [cbn [app]; now rewrite <- !app_assoc, S|].
        constructor. clear -W1 J. destruct J as [m t M|m t l r M J].
        + constructor. destruct M as [kk vv w2 tk w3 w4 t w5 A B C D E F]. rewrite app_assoc. constructor; auto. now apply ws_app.
        + rewrite app_assoc. constructor; [|exact J]. destruct M as [kk vv w2 tk w3 w4 t w5 A B C D E F]. rewrite app_assoc. constructor; auto. now apply ws_app. }
    destruct (c =? 91) eqn:E3.
    { apply N.eqb_eq in E3. subst c. destruct (skip_ws_spec q) as (w1 & S & W1 & _).
      destruct (head_is 93 (skip_ws q)) as [r1|] eqn:Hd.
      - injection H as <- <-. apply head_is_sound in Hd. rewrite Hd in S. exists (91 :: w1 ++ [93]). split; [cbn [app]; now rewrite <- app_assoc, S|].
        now constructor.
      - destruct (parse_value k (skip_ws q)) as [[v1 r2]|] eqn:P; [|discriminate].
        destruct (parse_elems k r2) as [[l r3]|] eqn:Q; [|discriminate]. injection H as <- <-.
        apply IV in P as (w2 & t & E & W2 & J). apply IE in Q as [[-> (w3 & -> & W3)]|(w3 & t3 & -> & W3 & J3)].
        + exists (91 :: ((w1 ++ w2) ++ t ++ w3) ++ [93]). split; [cbn [app]; rewrite S, E; now rewrite <- !app_assoc|].
          constructor. constructor; auto. now apply ws_app.
        + exists (91 :: ((w1 ++ w2) ++ t ++ w3 ++ 44 :: t3) ++ [93]). split; [cbn [app]; rewrite S, E; repeat (rewrite <- app_assoc; cbn [app]); reflexivity|].
          constructor. constructor; auto. now apply ws_app. }
    now apply literal_sound.
  - intros s l r H. rewrite parse_members_eq in H. destruct (skip_ws_spec s) as (w1 & S0 & W1 & _).
    destruct (head_is 34 (skip_ws s)) as [q|] eqn:H34; [|discriminate]. apply head_is_sound in H34. rewrite H34 in S0. subst s. clear H34.
    destruct (parse_string k q) as [[key q1]|] eqn:P; [|discriminate]. apply parse_string_sound in P as (us & ts & -> & U & D).
    destruct (skip_ws_spec q1) as (w2 & S & W2 & _). destruct (head_is 58 (skip_ws q1)) as [q2|] eqn:H58; [|discriminate].
    apply head_is_sound in H58. rewrite H58 in S. clear H58. destruct (parse_value k q2) as [[v q3]|] eqn:P; [|discriminate].
    apply IV in P as (w3 & t & -> & W3 & J). destruct (skip_ws_spec q3) as (w4 & S4 & W4 & _).
    assert (M : jmember (key, v) (w1 ++ (34 :: ts ++ [34]) ++ w2 ++ 58 :: w3 ++ t ++ w4)).
    { constructor; auto. now apply (js us). }
    destruct (head_is 44 (skip_ws q3)) as [q4|] eqn:H44.
    + apply head_is_sound in H44. rewrite H44 in S4. destruct (parse_members k q4) as [[l' q5]|] eqn:P; [|discriminate].
      injection H as <- <-. apply IM in P as (t5 & -> & J5). eexists. split; [|exact (jm_more _ _ _ _ M J5)].
      rewrite S, S4. repeat (rewrite <- app_assoc; cbn [app]). reflexivity.
    + destruct (head_is 125 (skip_ws q3)) as [q4|] eqn:H125; [|discriminate]. injection H as <- <-. apply head_is_sound in H125. rewrite H125 in S4.
      eexists. split; [|exact (jm_one _ _ M)]. rewrite S, S4. repeat (rewrite <- app_assoc; cbn [app]). reflexivity.
  - intros s l r H. rewrite parse_elems_eq in H. destruct (skip_ws_spec s) as (w1 & S & W1 & _).
    destruct (head_is 44 (skip_ws s)) as [q|] eqn:H44.
    + apply head_is_sound in H44. rewrite H44 in S. destruct (parse_value k q) as [[v q1]|] eqn:P; [|discriminate].
      apply IV in P as (w2 & t & -> & W2 & J). destruct (parse_elems k q1) as [[l' q2]|] eqn:Q; [|discriminate].
      injection H as <- <-. right. apply IE in Q as [[-> (w3 & -> & W3)]|(w3 & t3 & -> & W3 & J3)].
      * exists w1, (w2 ++ t ++ w3). split; [rewrite S; repeat (rewrite <- app_assoc; cbn [app]); reflexivity|]. split; [exact W1|now constructor].
      * exists w1, (w2 ++ t ++ w3 ++ 44 :: t3). split; [rewrite S; repeat (rewrite <- app_assoc; cbn [app]); reflexivity|].
        split; [exact W1|now constructor].
    + destruct (head_is 93 (skip_ws s)) as [q|] eqn:H93; [|discriminate]. injection H as <- <-. apply head_is_sound in H93. rewrite H93 in S.
      left. split; [reflexivity|]. now exists w1.
Qed.

Scheme jval_mut := Induction for jval Sort Prop
  with jelems_mut := Induction for jelems Sort Prop
  with jmembers_mut := Induction for jmembers Sort Prop
  with jmember_mut := Induction for jmember Sort Prop.
Combined Scheme json_mut from jval_mut, jelems_mut, jmembers_mut, jmember_mut.

Definition value_head (t : bytes) : Prop :=
  exists c q, t = c :: q /\ is_jws c = false /\ c <> 93 /\ c <> 125.
Lemma jnumber_head t : jnumber t -> exists c q, t = c :: q /\ (c = 45 \/ 48 <= c <= 57).
Proof.
  intros [sign i f x Sg I F X]. destruct Sg as [-> | ->]; [|cbn [app]; eauto]. cbn [app].
  destruct I as [|c q C Q]; cbn [app]; eexists; eexists; (split; [reflexivity|]); lia.
Qed.
Lemma jval_head v t : jval v t -> value_head t.
Proof.
  intros [ | | | t' N | o t' S | w W | l t' E | w W | l t' M ].
  1-3: cbn; eexists; eexists; repeat split; discriminate.
  - apply jnumber_head in N as (c & q & -> & H). exists c, q. split; [reflexivity|]. unfold is_jws. split; [lia|lia].
  - destruct S as [us o ts U D]. eexists; eexists; repeat split; discriminate.
  - eexists; eexists; repeat split; discriminate.
  - eexists; eexists; repeat split; discriminate.
  - eexists; eexists; repeat split; discriminate.
  - eexists; eexists; repeat split; discriminate.
Qed.
Lemma skip_to w c q : ws w -> is_jws c = false -> skip_ws (w ++ c :: q) = c :: q.
Proof. intros W C. now apply skip_ws_app. Qed.
Lemma stops_ws w c q : ws w -> c = 44 \/ c = 93 \/ c = 125 -> stops (w ++ c :: q).
Proof.
  intros [|d w' D W] C; cbn [app stops]; unfold dig; [lia|]. cbn [In] in D. lia.
Qed.
Lemma stops_ws_end w : ws w -> stops w.
Proof. intros [|d w' D W]; cbn [stops]; [exact Logic.I|]. unfold dig. cbn [In] in D. lia. Qed.

Lemma parse_value_ws fuel s : parse_value fuel (skip_ws s) = parse_value fuel s.
Proof. destruct fuel as [|x k]; [reflexivity|]. now rewrite !parse_value_eq, skip_ws_idem. Qed.
Lemma parse_members_ws fuel s : parse_members fuel (skip_ws s) = parse_members fuel s.
Proof. destruct fuel as [|x k]; [reflexivity|]. now rewrite !parse_members_eq, skip_ws_idem. Qed.
Ltac len F := revert F; repeat first [rewrite app_length | progress cbn [List.length]]; lia.
Definition Pv (v : json) (t : bytes) (_ : jval v t) : Prop := forall w r fuel, ws w -> stops r ->
  (List.length (w ++ t ++ r) < List.length fuel)%nat -> parse_value fuel (w ++ t ++ r) = Some (v, r).
Definition Pe (l : list json) (t : bytes) (_ : jelems l t) : Prop := forall r fuel,
  (List.length (t ++ 93%N :: r) < List.length fuel)%nat ->
  exists v l' r2, l = v :: l' /\ parse_value fuel (t ++ 93 :: r) = Some (v, r2) /\ parse_elems fuel r2 = Some (l', r).
Definition Pm (l : list (option bytes * json)) (t : bytes) (_ : jmembers l t) : Prop := forall r fuel,
  (List.length (t ++ 125%N :: r) < List.length fuel)%nat -> parse_members fuel (t ++ 125 :: r) = Some (l, r).
Definition Pk (m : option bytes * json) (t : bytes) (_ : jmember m t) : Prop := forall c r x k, c = 44 \/ c = 125 ->
  (List.length (t ++ c :: r) < List.length (x :: k))%nat ->
  parse_members (x :: k) (t ++ c :: r) =
  (if c =? 44 then match parse_members k r with Some (l, r5) => Some (m :: l, r5) | None => None end else Some ([m], r)).
Lemma literal_value s v r w c q : skip_ws (w ++ s) = c :: q -> s = c :: q ->
  c <> 34 -> c <> 123 -> c <> 91 -> literal (c :: q) = Some (v, r) ->
  forall fuel, (List.length (w ++ s) < List.length fuel)%nat -> parse_value fuel (w ++ s) = Some (v, r).
Proof.
  intros S -> A B C L fuel F. destruct fuel as [|x k]; [cbn in F; lia|]. rewrite parse_value_eq, S.
  replace (c =? 34) with false by lia. replace (c =? 123) with false by lia. replace (c =? 91) with false by lia. exact L.
Qed.
Lemma number_not p c q : (c = 45 \/ 48 <= c <= 57) -> (match p with x :: _ => 58 <= x | [] => False end) -> strip p (c :: q) = None.
Proof. intros H P. destruct p as [|x p]; [contradiction|]. cbn [strip]. now replace (x =? c) with false by lia. Qed.
Lemma complete_all : (forall v t j, Pv v t j) /\ (forall l t j, Pe l t j) /\ (forall l t j, Pm l t j) /\ (forall m t j, Pk m t j).
Proof.
  apply json_mut; unfold Pv, Pe, Pm, Pk.
  - intros w r fuel W S F. eapply literal_value; [apply (skip_to w 110 _ W); reflexivity|reflexivity| | | | |exact F]; try discriminate.
    reflexivity.
  - intros w r fuel W S F. eapply literal_value; [apply (skip_to w 116 _ W); reflexivity|reflexivity| | | | |exact F]; try discriminate.
    reflexivity.
  - intros w r fuel W S F. eapply literal_value; [apply (skip_to w 102 _ W); reflexivity|reflexivity| | | | |exact F]; try discriminate.
    reflexivity.
  - intros t N w r fuel W S F. destruct (jnumber_head t N) as (c & q & E & H).
    assert (L : literal (t ++ r) = Some (JNum, r)).
    { unfold literal. rewrite (parse_num_complete t r N S), E. cbn [app]. now rewrite !number_not by (cbn; first [exact H|lia]). }
    subst t. eapply literal_value; [apply (skip_to w c (q ++ r) W); unfold is_jws; lia|reflexivity|lia|lia|lia|exact L|exact F].
  - intros o t J w r fuel W S F. destruct J as [us o ts U D]. destruct fuel as [|x k]; [cbn in F; lia|].
    cbn [app] in *. rewrite <- app_assoc in *. cbn [app] in *. rewrite parse_value_eq, skip_to by (first [exact W|reflexivity]).
    cbn [N.eqb Pos.eqb]. rewrite (parse_string_complete us ts o r k U D); [reflexivity|]. len F.
  - intros w1 W1 w r fuel W S F. destruct fuel as [|x k]; [cbn in F; lia|]. cbn [app] in *. rewrite <- app_assoc in *. cbn [app] in *.
    rewrite parse_value_eq, skip_to by (first [exact W|reflexivity]). cbn [N.eqb Pos.eqb]. rewrite skip_to by (first [exact W1|reflexivity]).
    now rewrite head_is_complete.
  - intros l t J IH w r fuel W S F. destruct fuel as [|x k]; [cbn in F; lia|]. cbn [app] in *. rewrite <- app_assoc in *. cbn [app] in *.
    rewrite parse_value_eq, skip_to by (first [exact W|reflexivity]). cbn [N.eqb Pos.eqb].
    destruct (IH r k) as (v & l' & r2 & -> & P & E); [len F|].
    rewrite parse_value_ws, P, E.
    assert (H : exists w1 c q, t ++ 93 :: r = w1 ++ c :: q /\ ws w1 /\ is_jws c = false /\ c <> 93).
    { clear -J. inversion J as [v0 w1 t0 w2 W1 V W2|v0 l0 w1 t0 w2 r0 W1 V W2 J']; subst;
        destruct (jval_head _ _ V) as (c & q & -> & A & B & C); exists w1, c; eexists; (split; [rewrite <- app_assoc; cbn [app]; reflexivity|auto]). }
    destruct H as (w1 & c & q & -> & W1 & C & C'). rewrite skip_to by assumption. now rewrite head_is_other by congruence.
  - intros w1 W1 w r fuel W S F. destruct fuel as [|x k]; [cbn in F; lia|]. cbn [app] in *. rewrite <- app_assoc in *. cbn [app] in *.
    rewrite parse_value_eq, skip_to by (first [exact W|reflexivity]). cbn [N.eqb Pos.eqb]. rewrite skip_to by (first [exact W1|reflexivity]).
    now rewrite head_is_complete.
  - intros l t J IH w r fuel W S F. destruct fuel as [|x k]; [cbn in F; lia|]. cbn [app] in *. rewrite <- app_assoc in *. cbn [app] in *.
    rewrite parse_value_eq, skip_to by (first [exact W|reflexivity]). cbn [N.eqb Pos.eqb].
    rewrite parse_members_ws, IH by (len F).
    assert (H : exists w1 c q, t ++ 125 :: r = w1 ++ c :: q /\ ws w1 /\ is_jws c = false /\ c <> 125).
    { clear -J. assert (M : forall m t0 s, jmember m t0 -> exists w1 c q, t0 ++ s = w1 ++ c :: q /\ ws w1 /\ is_jws c = false /\ c <> 125).
      { intros m t0 s [kk vv w1 tk w2 w3 t1 w4 A B C D E F]. destruct B as [us o ts U Dc]. exists w1, 34. eexists. split; [|repeat split; [exact A|discriminate]].
        rewrite <- app_assoc. cbn [app]. reflexivity. }
      inversion J as [m t0 K|m t0 l0 r0 K J']; subst; [now apply (M m t)|]. rewrite <- app_assoc. now apply (M m t0). }
    destruct H as (w1 & c & q & -> & W1 & C & C'). rewrite skip_to by assumption. now rewrite head_is_other by congruence.
  - intros v w1 t w2 W1 J IH W2 r fuel F. destruct fuel as [|x k]; [cbn in F; lia|]. rewrite <- !app_assoc in *. exists v, [], (w2 ++ 93 :: r).
    split; [reflexivity|]. split; [apply IH; [exact W1|apply stops_ws; auto|exact F]|].
    rewrite parse_elems_eq, skip_to by (first [exact W2|reflexivity]). rewrite head_is_other by discriminate. now rewrite head_is_complete.
  - intros v l w1 t w2 q W1 J IH W2 JE IHE r fuel F. destruct fuel as [|x k]; [cbn in F; lia|].
    repeat (rewrite <- app_assoc in *; cbn [app] in * ). exists v, l, (w2 ++ 44 :: q ++ 93 :: r).
    split; [reflexivity|]. split; [apply IH; [exact W1|apply stops_ws; auto|exact F]|].
    rewrite parse_elems_eq, skip_to by (first [exact W2|reflexivity]). rewrite head_is_complete.
    destruct (IHE r k) as (v1 & l1 & r2 & -> & P & E).
    { len F. }
    now rewrite P, E.
  - intros m t K IH r fuel F. destruct fuel as [|x k]; [cbn in F; lia|]. rewrite IH by (auto; exact F). reflexivity.
  - intros m t l q K IH J IHJ r fuel F. destruct fuel as [|x k]; [cbn in F; lia|]. rewrite <- app_assoc in *. cbn [app] in *.
    rewrite IH by (auto; exact F). cbn [N.eqb Pos.eqb]. rewrite IHJ; [reflexivity|].
    len F.
  - intros key v w1 tk w2 w3 t w4 W1 B W2 W3 J IH W4 c r x k C F. destruct B as [us o ts U D].
    repeat (rewrite <- app_assoc in *; cbn [app] in * ).
    rewrite parse_members_eq, skip_to by (first [exact W1|reflexivity]). rewrite head_is_complete.
    rewrite (parse_string_complete us ts o _ k U D)
      by (len F).
    rewrite skip_to by (first [exact W2|reflexivity]). rewrite head_is_complete.
    rewrite IH; [|exact W3|apply stops_ws; [exact W4|tauto]|]; cycle 1.
    { len F. }
    rewrite skip_to; [|exact W4|destruct C as [-> | ->]; reflexivity]. destruct C as [-> | ->].
    + now rewrite head_is_complete.
    + rewrite head_is_other by discriminate. now rewrite head_is_complete.
Qed.

(** ** Whole texts *)
Lemma json_from_str_iff s j : json_from_str s = Some j <-> jtext j s.
Proof.
  unfold json_from_str, jtext. split.
  - destruct (parse_value (0 :: s) s) as [[v r]|] eqn:P; [|discriminate]. apply (proj1 (sound_all (0 :: s))) in P as (w & t & E & W & J).
    destruct (skip_ws_spec r) as (w2 & S & W2 & _). destruct (skip_ws r); [|discriminate]. intros H. injection H as <-.
    rewrite app_nil_r in S. subst w2. exists w, t, r. auto.
  - intros (w1 & t & w2 & W1 & J & W2 & ->).
    rewrite (proj1 complete_all j t J w1 w2 (0 :: w1 ++ t ++ w2) W1 (stops_ws_end w2 W2)) by (cbn [List.length]; lia).
    replace w2 with (w2 ++ []) by apply app_nil_r. rewrite skip_ws_app; [reflexivity|exact W2|exact Logic.I].
Qed.
