(** * UTF-8, independently of the test in Base.v

    A text is a list of Unicode scalar values; its bytes are their encodings one
    after the other (RFC 3629, section 3). *)
From Coq Require Import Lia.
From Verif Require Import Base.
Open Scope N_scope.

Definition scalar (n : N) : Prop := n < 55296 \/ 57344 <= n < 1114112.
Definition encoded (n : N) : bytes :=
  if n <? 128 then [n]
  else if n <? 2048 then [192 + n / 64; 128 + n mod 64]
  else if n <? 65536 then [224 + n / 4096; 128 + n / 64 mod 64; 128 + n mod 64]
  else [240 + n / 262144; 128 + n / 4096 mod 64; 128 + n / 64 mod 64; 128 + n mod 64].
Definition utf8_text (s : bytes) : Prop := exists cs, Forall scalar cs /\ s = flat_map encoded cs.

Ltac bools :=
  repeat match goal with
  | H : _ && _ = true |- _ => apply andb_prop in H as [? ?]
  | H : (_ <=? _) = true |- _ => apply N.leb_le in H
  | H : (_ <? _) = true |- _ => apply N.ltb_lt in H
  | H : (_ =? _) = true |- _ => apply N.eqb_eq in H
  | H : (_ <=? _) = false |- _ => apply N.leb_gt in H
  | H : (_ <? _) = false |- _ => apply N.ltb_ge in H
  | H : (_ =? _) = false |- _ => apply N.eqb_neq in H
  | H : is_cont _ = true |- _ => unfold is_cont in H
  end.
Lemma div_mod_64 n : n = 64 * (n / 64) + n mod 64 /\ n mod 64 < 64.
Proof. split; [apply N.div_mod; discriminate|apply N.mod_lt; discriminate]. Qed.
Lemma splits q r : r < 64 -> (64 * q + r) / 64 = q /\ (64 * q + r) mod 64 = r.
Proof.
  intros H. split.
  - symmetry. apply (N.div_unique _ 64 q r); lia.
  - symmetry. apply (N.mod_unique _ 64 q r); lia.
Qed.
Lemma div_4096 n : n / 4096 = n / 64 / 64.
Proof. rewrite N.div_div by discriminate. reflexivity. Qed.
Lemma div_262144 n : n / 262144 = n / 64 / 64 / 64.
Proof. rewrite !N.div_div by discriminate. reflexivity. Qed.

Lemma utf8_test_encoded n s : scalar n -> utf8_valid (encoded n ++ s) = utf8_valid s.
Proof.
  intros S. unfold encoded. rewrite ?div_4096, ?div_262144.
  destruct (div_mod_64 n) as [E0 L0], (div_mod_64 (n / 64)) as [E1 L1], (div_mod_64 (n / 64 / 64)) as [E2 L2].
  unfold scalar in S. revert E0 L0 E1 L1 E2 L2.
  generalize (n mod 64) as r0, (n / 64 mod 64) as r1, (n / 64 / 64 mod 64) as r2, (n / 64 / 64 / 64) as q3, (n / 64 / 64) as q2, (n / 64) as q1.
  intros r0 r1 r2 q3 q2 q1 E0 L0 E1 L1 E2 L2.
  destruct (n <? 128) eqn:A; bools; [|destruct (n <? 2048) eqn:B; bools; [|destruct (n <? 65536) eqn:C; bools]]; cbn [app utf8_valid]; unfold is_cont;
    repeat match goal with
    | |- context [?a <=? ?b] => first [rewrite (proj2 (N.leb_le a b)) by lia | rewrite (proj2 (N.leb_gt a b)) by lia | destruct (N.leb_spec a b)]; cbn [andb]
    | |- context [?a <? ?b] => first [rewrite (proj2 (N.ltb_lt a b)) by lia | rewrite (proj2 (N.ltb_ge a b)) by lia | destruct (N.ltb_spec a b)]; cbn [andb]
    | |- context [?a =? ?b] => destruct (N.eqb_spec a b); cbn [andb]
    end; try reflexivity; exfalso; lia.
Qed.
Lemma utf8_valid_text s : utf8_valid s = true -> utf8_text s.
Proof.
  remember (List.length s) as k eqn:K. assert (L : (List.length s <= k)%nat) by lia. clear K. revert s L.
  induction k as [|k IH]; intros s L V.
  - destruct s; [now exists []|cbn in L; lia].
  - destruct s as [|a r]; [now exists []|].
    assert (Go : forall n t, a :: r = encoded n ++ t -> scalar n -> utf8_valid t = true -> (List.length t <= k)%nat -> utf8_text (a :: r)).
    { intros n t E S T M. destruct (IH t M T) as (cs & F & ->). exists (n :: cs). split; [now constructor|exact E]. }
    cbn [utf8_valid] in V. cbn [List.length] in L. destruct (a <? 128) eqn:A; bools.
    { apply (Go a r); [unfold encoded; now rewrite (proj2 (N.ltb_lt a 128) A)|left; lia|exact V|lia]. }
    destruct r as [|b r1]; [discriminate|]. cbn [List.length] in L. destruct ((194 <=? a) && (a <? 224)) eqn:B; bools.
    { destruct (splits (a - 192) (b - 128)) as [D M]; [lia|].
      apply (Go (64 * (a - 192) + (b - 128)) r1); [|left; lia|assumption|lia].
      unfold encoded. rewrite (proj2 (N.ltb_ge _ 128)), (proj2 (N.ltb_lt _ 2048)), D, M by lia. cbn [app]. repeat f_equal; lia. }
    destruct r1 as [|c r2]; [discriminate|]. cbn [List.length] in L. destruct ((224 <=? a) && (a <? 240)) eqn:C; bools.
    { destruct (splits (64 * (a - 224) + (b - 128)) (c - 128)) as [D M]; [lia|]. destruct (splits (a - 224) (b - 128)) as [D2 M2]; [lia|].
      assert (X : (a = 224 -> 160 <= b) /\ (a = 237 -> b < 160)).
      { split; intros E; rewrite E in *; cbn in *; bools; lia. }
      destruct X as [X1 X2].
      apply (Go (64 * (64 * (a - 224) + (b - 128)) + (c - 128)) r2); [|unfold scalar; destruct (N.eq_dec a 237); lia|assumption|lia].
      unfold encoded. rewrite div_4096, D, M, D2, M2.
      rewrite (proj2 (N.ltb_ge _ 128)), (proj2 (N.ltb_ge _ 2048)), (proj2 (N.ltb_lt _ 65536)) by (destruct (N.eq_dec a 224); lia).
      cbn [app]. repeat f_equal; lia. }
    destruct r2 as [|d r3]; [discriminate|]. cbn [List.length] in L. bools.
    assert (X : (a = 240 -> 144 <= b) /\ (a = 244 -> b < 144)).
    { split; intros E; rewrite E in *; cbn in *; bools; lia. }
    destruct X as [X1 X2].
    destruct (splits (64 * (64 * (a - 240) + (b - 128)) + (c - 128)) (d - 128)) as [D M]; [lia|].
    destruct (splits (64 * (a - 240) + (b - 128)) (c - 128)) as [D2 M2]; [lia|]. destruct (splits (a - 240) (b - 128)) as [D3 M3]; [lia|].
    apply (Go (64 * (64 * (64 * (a - 240) + (b - 128)) + (c - 128)) + (d - 128)) r3); [|unfold scalar; right; destruct (N.eq_dec a 240), (N.eq_dec a 244); lia|assumption|lia].
    unfold encoded. rewrite div_262144, div_4096, D, M, D2, M2, D3, M3.
    rewrite (proj2 (N.ltb_ge _ 128)), (proj2 (N.ltb_ge _ 2048)), (proj2 (N.ltb_ge _ 65536)) by (destruct (N.eq_dec a 240); lia).
    cbn [app]. repeat f_equal; lia.
Qed.
Lemma utf8_iff s : utf8_valid s = true <-> utf8_text s.
Proof.
  split; [apply utf8_valid_text|]. intros (cs & F & ->). induction F as [|n cs S F IH]; [reflexivity|].
  cbn [flat_map]. now rewrite utf8_test_encoded.
Qed.
