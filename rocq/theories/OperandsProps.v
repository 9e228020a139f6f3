(** * Properties C01-C15: string and integer conversions *)
From Coq Require Import Reals Floats.SpecFloat Lra ZifyBool ZifyN ZifyNat.
From Flocq Require Import Core IEEE754.BinarySingleNaN.
From Verif Require Import Base F64 SpecR F64Facts Operands Ast Spec DigitFacts OperandsFacts.
Import ListNotations.
Open Scope N_scope.

Lemma exact_value_dec m v : exact_value m v = dec_real m (- Z.of_nat v).
Proof.
  unfold exact_value, dec_real. rewrite bpow_opp.
  rewrite <- (IZR_Zpower radix10) by lia. reflexivity.
Qed.
Lemma dec64_nearest m v : nearest64 (exact_value m v) (dec64 m (- Z.of_nat v)).
Proof.
  unfold nearest64. cbv zeta. change (FLT_exp (-1074) 53) with fexp64. rewrite exact_value_dec.
  destruct (dec64_correct m (- Z.of_nat v)) as [V C].
  destruct (Rlt_bool_spec (rnd64 (dec_real m (- Z.of_nat v))) (bpow radix2 1024)) as [L|L].
  - left. destruct C as (A & B & D). auto 6.
  - right. auto.
Qed.
Lemma exact_value_0 m : exact_value m 0 = IZR (Z.of_N m).
Proof. unfold exact_value. cbn. field. Qed.
Lemma f64_of_N_nearest m : nearest64 (IZR (Z.of_N m)) (f64_of_N m).
Proof. rewrite <- exact_value_0. exact (dec64_nearest m 0). Qed.

Lemma trailing_exists f : exists g, without_trailing_zeros f g.
Proof. exists (trim_end_matches 48 f). apply trim_end_spec. Qed.

Lemma not_minus_digits i t : digits i -> i <> [] -> forall r, i ++ t <> 45 :: r.
Proof. intros D N r. apply (no_sign_digits i t D N r). Qed.

Lemma from_str_frac sg i f g :
  minus_opt sg -> digits i -> digits f -> i <> [] -> f <> [] ->
  dval i < 2 ^ 64 -> dval f < 2 ^ 64 -> without_trailing_zeros f g ->
  operands_from_str (sg ++ i ++ [46] ++ f) =
  Ok (mkOps (dec64 (dval (i ++ f)) (- Z.of_nat (List.length f)))
            (dval i) (N.of_nat (List.length f)) (N.of_nat (List.length g)) (dval f) (dval g)).
Proof.
  intros S Di Df Ni Nf Bi Bf W.
  pose proof (from_abs_frac [] i f g (or_introl eq_refl) Di Df Ni Nf Bi Bf W) as H. cbn [app] in H.
  destruct S as [->| ->]; cbn [app].
  - rewrite from_str_plain; [exact H|]. now apply not_minus_digits.
  - rewrite from_str_minus; [exact H|]. now apply ascii_head_digits.
Qed.

Lemma C01_lemma sg i f :
  minus_opt sg -> digits i -> digits f -> i <> [] -> f <> [] ->
  dval i < 2 ^ 64 -> dval f < 2 ^ 64 ->
  exists n g, without_trailing_zeros f g /\
    operands_from_str (sg ++ i ++ [46] ++ f) =
    Ok (mkOps n (dval i) (N.of_nat (List.length f)) (N.of_nat (List.length g)) (dval f) (dval g)).
Proof.
  intros S Di Df Ni Nf Bi Bf. destruct (trailing_exists f) as [g W].
  eexists _, g. split; [exact W|]. now apply from_str_frac.
Qed.

(** ** C02 *)
Lemma from_str_int sg i : minus_opt sg -> digits i -> i <> [] ->
  operands_from_str (sg ++ i) = Ok (mkOps (f64_of_N (dval i)) (float_to_u64 (f64_of_N (dval i))) 0 0 0 0).
Proof.
  intros S D N.
  destruct (from_abs_int [] i [] (or_introl eq_refl) D N (or_introl eq_refl)) as (e & E & H).
  rewrite (E eq_refl) in H. cbn [app is_minus] in H. rewrite app_nil_r in H.
  destruct S as [->| ->]; cbn [app].
  - rewrite from_str_plain; [exact H|]. rewrite <- (app_nil_r i). now apply not_minus_digits.
  - rewrite from_str_minus; [exact H|]. now apply ascii_head_digits'.
Qed.

Lemma C02_int_lemma sg i po : minus_opt sg -> digits i -> i <> [] ->
  operands_from_str (sg ++ i) = Ok po -> nearest64 (exact_value (dval i) 0) (op_n po).
Proof.
  intros S D N. rewrite from_str_int by auto. intros H. injection H as <-. cbn [op_n].
  rewrite exact_value_0. apply f64_of_N_nearest.
Qed.

Lemma accepted_frac_bounds sg i f po : minus_opt sg -> digits i -> digits f -> i <> [] -> f <> [] ->
  operands_from_str (sg ++ i ++ [46] ++ f) = Ok po -> dval i < 2 ^ 64 /\ dval f < 2 ^ 64.
Proof.
  intros S Di Df Ni Nf H.
  assert (A : from_abs (i ++ 46 :: f) = Ok po).
  { destruct S as [->| ->]; cbn [app] in H.
    - rewrite from_str_plain in H; [exact H|]. now apply not_minus_digits.
    - rewrite from_str_minus in H; [exact H|]. now apply ascii_head_digits. }
  unfold from_abs in A. apply rbind_ok in A as (x & _ & A).
  rewrite find_byte_app in A by (apply digits_not_in; auto; unfold digit_char; lia).
  destruct (slices_at i f (ascii_head_digits' f Df)) as [S1 S2]. rewrite S1, S2 in A. cbn [rbind] in A.
  apply rbind_ok in A as (id & A1 & A). apply rbind_ok in A as (fd & A2 & _).
  apply ok_or_ok in A1, A2.
  split.
  - destruct (N.lt_ge_cases (dval i) (2 ^ 64)); auto.
    rewrite u64_from_str_none_big in A1 by auto. discriminate.
  - destruct (N.lt_ge_cases (dval f) (2 ^ 64)); auto.
    rewrite u64_from_str_none_big in A2 by auto. discriminate.
Qed.

Lemma C02_frac_lemma sg i f po : minus_opt sg -> digits i -> digits f -> i <> [] -> f <> [] ->
  operands_from_str (sg ++ i ++ [46] ++ f) = Ok po ->
  nearest64 (exact_value (dval (i ++ f)) (List.length f)) (op_n po).
Proof.
  intros S Di Df Ni Nf H.
  destruct (accepted_frac_bounds sg i f po S Di Df Ni Nf H) as [Bi Bf].
  destruct (trailing_exists f) as [g W].
  rewrite (from_str_frac sg i f g) in H by auto. injection H as <-. apply dec64_nearest.
Qed.

(** ** C03 *)
Lemma C03_lemma s : utf8_valid s = true -> (forall r, s <> 45 :: r) ->
  operands_from_str (45 :: s) = operands_from_str s.
Proof.
  intros V H. rewrite from_str_minus by now apply utf8_head. now rewrite from_str_plain.
Qed.

(** ** C04 *)
Lemma dec_sign neg m e : sign_SF (dec_to_float 53 1024 neg m e) = neg \/ dec_to_float 53 1024 neg m e = S754_nan.
Proof.
  destruct m as [|p]; [now left|]. left.
  pose proof (dec_to_float_correct 53 1024 _ _ neg p e) as H. cbv zeta in H.
  destruct H as [_ H]. destruct (Rlt_bool _ _) in H.
  - now destruct H as (_ & _ & ->).
  - rewrite H. reflexivity.
Qed.

Lemma from_abs_sign sg t po : sign_opt sg -> no_sign t -> from_abs (sg ++ t) = Ok po ->
  op_n po = S754_nan \/ sign_SF (op_n po) = is_minus sg.
Proof.
  intros S NS H. unfold from_abs in H. apply rbind_ok in H as (x & X & H). apply ok_or_ok in X.
  assert (E : op_n po = x).
  { destruct (find_byte 46 (sg ++ t)) as [k|].
    - apply rbind_ok in H as (? & _ & H). apply rbind_ok in H as (? & _ & H).
      apply rbind_ok in H as (? & _ & H). apply rbind_ok in H as (? & _ & H). now injection H as <-.
    - now injection H as <-. }
  rewrite E. clear E H. destruct t as [|c r].
  - exfalso. rewrite app_nil_r in X. destruct S as [->|[->| ->]]; discriminate X.
  - rewrite f64_from_str_sign in X by easy.
    destruct (parse_number (c :: r)) as [[m e]|].
    + injection X as <-. destruct (dec_sign (is_minus sg) m e) as [D|D]; auto.
    + unfold parse_inf_nan in X. destruct (bytes_eqb _ _) in X; [injection X as <-; auto|].
      destruct (bytes_eqb _ _ || _)%bool in X; [|discriminate]. injection X as <-. auto.
Qed.
Lemma split_sign s : exists sg t, s = sg ++ t /\ sign_opt sg /\ (sg = [] -> no_sign t) /\
  match s with 45 :: _ => sg = [45] | 43 :: _ => sg = [43] | _ => sg = [] end.
Proof.
  unfold sign_opt, no_sign. destruct s as [|c r].
  - exists [], []. repeat split; auto; easy.
  - destruct (N.eqb_spec c 45) as [->|E1]; [exists [45], r; repeat split; auto; easy|].
    destruct (N.eqb_spec c 43) as [->|E2]; [exists [43], r; repeat split; auto; easy|].
    exists [], (c :: r). repeat split; auto; try congruence.
    destruct c; [easy|]. repeat (destruct p; try easy).
Qed.
Lemma number_no_sign t : number_syntax t -> no_sign t \/ exists f, t = 46 :: f.
Proof.
  intros [(i & ex & -> & D & N & X)|[(i & f & ex & -> & Di & Df & N & X)|W]].
  - left. now apply no_sign_digits.
  - destruct i as [|c i]; [right; cbn; eauto|]. left. now apply no_sign_digits.
  - left. now apply special_no_sign.
Qed.
Lemma abs_form t po : from_abs t = Ok po -> exists sg u, t = sg ++ u /\ sign_opt sg /\ no_sign u.
Proof.
  intros H. assert (A := from_abs_ok t po H).
  destruct A as [sg i ex S D N X|sg w S W|plus i f P Di Df Ni Nf Bi Bf].
  - exists sg, (i ++ ex). repeat split; auto; now apply no_sign_digits.
  - exists sg, w. repeat split; auto; now apply special_no_sign.
  - exists plus, (i ++ [46] ++ f). split; [reflexivity|]. split.
    + unfold sign_opt. destruct P; auto.
    + now apply no_sign_digits.
Qed.

Lemma C04_lemma s po : operands_from_str s = Ok po ->
  (forall r, s <> 45 :: 45 :: r) -> not_negative (op_n po).
Proof.
  intros H NM. unfold not_negative.
  assert (exists t, from_abs t = Ok po /\ forall r, t <> 45 :: r) as (t & A & T).
  { destruct s as [|c r].
    - exists []. split; [rewrite from_str_plain in H; easy|easy].
    - destruct (N.eqb_spec c 45) as [->|E].
      + exists r. split; [|intros r' K; apply (NM r'); congruence].
        rewrite operands_from_str_eq in H. apply rbind_ok in H as (t & H1 & H2).
        cbn [N.eqb Pos.eqb] in H1. unfold slice_from in H1.
        destruct (is_char_boundary _ _) in H1; [|discriminate]. injection H1 as <-. exact H2.
      + exists (c :: r). split; [|congruence]. rewrite from_str_plain in H; [exact H|congruence]. }
  destruct (abs_form t po A) as (sg & u & -> & S & NS).
  destruct (from_abs_sign sg u po S NS A) as [E|E]; [now left|].
  right. rewrite E. destruct S as [->|[->| ->]]; auto. elim (T u eq_refl).
Qed.
(** the exact extent of the exception *)
Lemma C04_converse r po : operands_from_str (45 :: 45 :: r) = Ok po ->
  op_n po = S754_nan \/ sign_SF (op_n po) = true.
Proof.
  intros H. rewrite from_str_minus in H by (cbn; lia).
  destruct (abs_form _ po H) as (sg & u & E & S & NS).
  destruct S as [->|[->| ->]]; cbn [app] in E.
  - exfalso. destruct (NS r) as [N1 _]. now rewrite E in N1.
  - discriminate E.
  - injection E as ->. change (45 :: u) with ([45] ++ u) in H.
    now apply (from_abs_sign [45] u po) in H; [|unfold sign_opt; auto|].
Qed.

(** ** C05 *)
Lemma C05_lemma s : utf8_valid s = true ->
  (accepted s -> exists po, operands_from_str s = Ok po) /\
  (~ accepted s -> exists e, operands_from_str s = Err e).
Proof.
  intros V. split; [apply accepted_iff|].
  intros H. destruct (operands_from_str s) as [po|e|w] eqn:E.
  - elim H. apply accepted_iff. eauto.
  - eauto.
  - elim (from_str_no_panic s w V E).
Qed.

(** ** C06 *)
Lemma f64_of_N_trunc m :
  Z.of_N (float_to_u64 (f64_of_N m)) =
  Z.min (Zfloor (round radix2 (FLT_exp (-1074) 53) ZnearestE (IZR (Z.of_N m)))) (2 ^ 64 - 1).
Proof.
  change (FLT_exp (-1074) 53) with fexp64.
  destruct (dec64_correct m 0) as [V C]. rewrite dec_real_int in C.
  destruct (Rlt_bool_spec (rnd64 (IZR (Z.of_N m))) (bpow radix2 1024)) as [L|L].
  - destruct C as (A & B & D). unfold f64_of_N. rewrite float_to_u64_correct by auto. now rewrite A.
  - unfold f64_of_N. rewrite C. cbn [float_to_u64]. rewrite Z.min_r; [reflexivity|].
    rewrite IZR_bpow2 in L by lia.
    apply Z.le_trans with (2 ^ 1024)%Z; [apply Z.le_trans with (2 ^ 64)%Z; [lia|apply Z.pow_le_mono_r; lia]|].
    rewrite <- (Zfloor_IZR (2 ^ 1024)). now apply Zfloor_le.
Qed.
Lemma f64_of_N_trunc_exact m : m <= 2 ^ 53 -> float_to_u64 (f64_of_N m) = m.
Proof.
  intros H. destruct (f64_of_N_exact m H) as (A & B & C).
  apply N2Z.inj. rewrite float_to_u64_correct by auto. rewrite A, Zfloor_IZR. lia.
Qed.

Lemma C06_lemma sg i : minus_opt sg -> digits i -> i <> [] -> dval i <= 2 ^ 53 ->
  exists n, operands_from_str (sg ++ i) = Ok (mkOps n (dval i) 0 0 0 0).
Proof. intros. rewrite from_str_int by auto. rewrite f64_of_N_trunc_exact by auto. eauto. Qed.
Lemma C06_formula sg i : minus_opt sg -> digits i -> i <> [] ->
  exists n k, operands_from_str (sg ++ i) = Ok (mkOps n k 0 0 0 0) /\
    Z.of_N k = Z.min (Zfloor (round radix2 (FLT_exp (-1074) 53) ZnearestE (IZR (Z.of_N (dval i))))) (2 ^ 64 - 1).
Proof. intros. rewrite from_str_int by auto. eexists _, _. split; [reflexivity|]. apply f64_of_N_trunc. Qed.

(** ** C07, C08 *)
Lemma accepted_cases s po : operands_from_str s = Ok po ->
  (~ In 46 s /\ op_v po = 0 /\ op_w po = 0 /\ op_f po = 0 /\ op_t po = 0) \/
  (exists pre i f g, s = pre ++ i ++ 46 :: f /\
     (pre = [] \/ pre = [43] \/ pre = [45] \/ pre = [45; 43]) /\
     digits i /\ digits f /\ i <> [] /\ f <> [] /\ dval i < 2 ^ 64 /\ dval f < 2 ^ 64 /\
     without_trailing_zeros f g /\
     po = mkOps (dec64 (dval (i ++ f)) (- Z.of_nat (List.length f)))
            (dval i) (N.of_nat (List.length f)) (N.of_nat (List.length g)) (dval f) (dval g)).
Proof.
  intros H.
  assert (exists m t, s = m ++ t /\ minus_opt m /\ from_abs t = Ok po) as (m & t & -> & M & A).
  { unfold minus_opt. destruct s as [|c r].
    - exists [], []. rewrite from_str_plain in H; auto; easy.
    - destruct (N.eqb_spec c 45) as [->|E].
      + exists [45], r. split; [reflexivity|]. split; [auto|].
        rewrite operands_from_str_eq in H. apply rbind_ok in H as (t & H1 & H2).
        cbn [N.eqb Pos.eqb] in H1. unfold slice_from in H1.
        destruct (is_char_boundary _ _) in H1; [|discriminate]. injection H1 as <-. exact H2.
      + exists [], (c :: r). rewrite from_str_plain in H; [auto|congruence]. }
  assert (NM : ~ In 46 m) by (destruct M as [->| ->]; [easy|]; intros [K|[]]; discriminate K).
  assert (B := from_abs_ok t po A).
  destruct B as [sg i ex S D N X|sg w S W|plus i f P Di Df Ni Nf Bi Bf].
  - left. destruct (from_abs_int sg i ex S D N X) as (e & _ & E). cbv zeta in E. rewrite E in A. injection A as <-.
    split; [|auto]. intros K. apply in_app_or in K as [K|K]; [auto|].
    apply in_app_or in K as [K|K]; [now apply in_sign in K|].
    apply in_app_or in K as [K|K]; [|now apply in_exponent in K].
    revert K. apply digits_not_in; auto. unfold digit_char. lia.
  - left. destruct (from_abs_special sg w S W) as (x & _ & E). rewrite E in A. injection A as <-.
    split; [|auto]. intros K. apply in_app_or in K as [K|K]; [auto|].
    apply in_app_or in K as [K|K]; [now apply in_sign in K|now apply special_no_point in K].
  - right. destruct (trailing_exists f) as [g G].
    cbn [app] in A. rewrite (from_abs_frac plus i f g) in A by auto. injection A as <-.
    exists (m ++ plus), i, f, g.
    split; [now rewrite <- app_assoc|].
    split; [destruct M as [->| ->]; destruct P as [->| ->]; cbn; auto|]. auto 12.
Qed.

Lemma dval_last0 g : digits g -> dval g mod 10 = 0 -> g <> [] -> exists g', g = g' ++ [48].
Proof.
  intros D M N. destruct (exists_last N) as (g' & c & ->).
  exists g'. apply digits_app in D as [Dg Dc]. apply digits_cons in Dc as [Dc _]. unfold digit_char in Dc.
  rewrite dval_app in M. cbn [dval List.length] in M. cbn in M.
  assert (c = 48); [|now subst].
  replace (dval g' * 10 + ((c - 48) * 1 + 0)) with ((c - 48) + dval g' * 10) in M by lia.
  rewrite N.mod_add in M by lia. rewrite N.mod_small in M by lia. lia.
Qed.
Lemma C07_lemma s po : operands_from_str s = Ok po ->
  op_w po <= op_v po /\ op_f po = op_t po * 10 ^ (op_v po - op_w po) /\
  op_f po < 10 ^ op_v po /\ op_t po < 10 ^ op_w po /\
  (op_w po = 0 <-> op_t po = 0) /\ (op_t po <> 0 -> op_t po mod 10 <> 0).
Proof.
  intros H. apply accepted_cases in H as [(_ & V & W & F & T)|(pre & i & f & g & -> & _ & Di & Df & _ & Nf & _ & _ & [[z Z] G] & ->)].
  - rewrite V, W, F, T. repeat split; try reflexivity; try lia.
  - cbn [op_w op_v op_f op_t].
    assert (Dg : digits g) by (rewrite Z in Df; apply digits_app in Df; tauto).
    assert (L : N.of_nat (List.length f) = N.of_nat (List.length g) + N.of_nat z)
      by (rewrite Z, app_length, repeat_length; lia).
    assert (V : dval f = dval g * 10 ^ N.of_nat z)
      by (rewrite Z, dval_app, dval_repeat0, repeat_length; lia).
    rewrite L, V. replace (N.of_nat (List.length g) + N.of_nat z - N.of_nat (List.length g)) with (N.of_nat z) by lia.
    assert (P : 0 < 10 ^ N.of_nat z) by (apply N.neq_0_lt_0, N.pow_nonzero; lia).
    assert (B := dval_lt g Dg).
    assert (M : g <> [] -> dval g mod 10 <> 0).
    { intros N K. destruct (dval_last0 g Dg K N) as [g' E]. now apply (G g'). }
    repeat split; auto.
    + lia.
    + rewrite N.pow_add_r. nia.
    + intros K. destruct g; [reflexivity|cbn in K; lia].
    + intros K. destruct g as [|c g]; [reflexivity|]. exfalso. apply M; [easy|]. now rewrite K.
    + intros K. apply M. intros ->. now apply K.
Qed.

Lemma wtz_snoc f g : without_trailing_zeros f g -> without_trailing_zeros (f ++ [48]) g.
Proof.
  intros [[z Z] G]. split; [|exact G]. exists (S z).
  rewrite Z, <- app_assoc. f_equal. change [48] with (repeat 48 1).
  rewrite <- repeat_app. f_equal. lia.
Qed.
Lemma dec64_snoc0 m k : dec64 (m * 10) (- Z.of_nat (S k)) = dec64 m (- Z.of_nat k).
Proof.
  apply (dec_to_float_value 53 1024 _ _). 
  unfold dec_real. rewrite N2Z.inj_mul, mult_IZR.
  replace (- Z.of_nat k)%Z with (1 + - Z.of_nat (S k))%Z by lia. rewrite bpow_plus.
  cbn [bpow]. change (IZR (Z.pow_pos radix10 1)) with 10%R. change (Z.of_N 10) with 10%Z. lra.
Qed.

Lemma dval_snoc0 d : dval (d ++ [48]) = dval d * 10.
Proof. rewrite dval_app. cbn. lia. Qed.

Lemma C08_lemma s po : operands_from_str s = Ok po -> In 46 s ->
  operands_from_str (s ++ [48]) =
  if op_f po * 10 <? 2 ^ 64
  then Ok (mkOps (op_n po) (op_i po) (op_v po + 1) (op_w po) (op_f po * 10) (op_t po))
  else Err "Could not convert string to integer!".
Proof.
  intros H P. assert (H0 := H).
  apply accepted_cases in H as [(NI & _)|(pre & i & f & g & -> & Pre & Di & Df & Ni & Nf & Bi & Bf & G & ->)]; [easy|].
  cbn [op_w op_v op_f op_t op_n op_i].
  assert (Df0 : digits (f ++ [48])) by (apply digits_app; split; [auto|]; repeat constructor; unfold digit_char; lia).
  assert (V0 : dval (f ++ [48]) = dval f * 10) by (rewrite dval_app; cbn; lia).
  assert (X : exists plus, (plus = [] \/ plus = [43]) /\ forall u, ascii_head (i ++ u) ->
    operands_from_str (pre ++ i ++ u) = from_abs (plus ++ i ++ u)).
  { destruct Pre as [->|[->|[->| ->]]].
    - exists []. split; [auto|]. intros u _. cbn [app]. apply from_str_plain. now apply not_minus_digits.
    - exists [43]. split; [auto|]. intros u _. cbn [app]. apply from_str_plain. congruence.
    - exists []. split; [auto|]. intros u A. cbn [app]. now apply from_str_minus.
    - exists [43]. split; [auto|]. intros u A. cbn [app]. apply from_str_minus. cbn. lia. }
  destruct X as (plus & PP & X).
  replace ((pre ++ i ++ 46 :: f) ++ [48]) with (pre ++ i ++ 46 :: (f ++ [48])) by (rewrite <- !app_assoc; reflexivity).
  rewrite X by now apply ascii_head_digits.
  destruct (N.ltb_spec (dval f * 10) (2 ^ 64)) as [L|L].
  - rewrite (from_abs_frac plus i (f ++ [48]) g); auto; try lia; [|destruct f; easy|now apply wtz_snoc].
    do 2 f_equal.
    + rewrite app_assoc, dval_snoc0, app_length. cbn [List.length].
      replace (List.length f + 1)%nat with (S (List.length f)) by lia.
      apply dec64_snoc0.
    + rewrite app_length. cbn [List.length]. lia.
    + exact V0.
  - unfold from_abs. rewrite f64_from_str_sign; [|destruct PP as [->| ->]; unfold sign_opt; auto|now apply no_sign_digits|destruct i; easy].
    rewrite parse_number_frac by (auto; destruct i; easy). cbn [ok_or rbind].
    rewrite app_assoc, find_byte_app.
    2:{ intros K. apply in_app_or in K as [K|K].
        - destruct PP as [->| ->]; [easy|]. destruct K as [K|[]]; discriminate K.
        - revert K. apply digits_not_in; auto. unfold digit_char. lia. }
    destruct (slices_at (plus ++ i) (f ++ [48]) (ascii_head_digits' _ Df0)) as [-> ->]. cbn [rbind].
    rewrite (u64_from_str_none_big (f ++ [48])) by (auto; lia).
    destruct (u64_from_str (plus ++ i)); reflexivity.
Qed.

(** ** C09 *)
Lemma u64_leading0 i : digits i -> i <> [] -> u64_from_str (48 :: i) = u64_from_str i.
Proof.
  intros D N. unfold u64_from_str, unsigned_from_str. destruct i as [|c r]; [easy|].
  apply digits_cons in D as [Hc _]. unfold digit_char in Hc.
  assert (E : c =? 43 = false) by lia. rewrite E. reflexivity.
Qed.
Lemma C09_int_lemma i : digits i -> i <> [] -> operands_from_str (48 :: i) = operands_from_str i.
Proof.
  intros D N.
  assert (D0 : digits (48 :: i)) by (constructor; [unfold digit_char; lia|auto]).
  rewrite (from_str_int [] i (or_introl eq_refl) D N : operands_from_str i = _).
  rewrite (from_str_int [] (48 :: i) (or_introl eq_refl) D0 ltac:(discriminate) : operands_from_str (48 :: i) = _).
  cbn [dval]. replace ((48 - 48) * 10 ^ N.of_nat (List.length i) + dval i) with (dval i) by lia. reflexivity.
Qed.
Lemma C09_frac_lemma i f : digits i -> i <> [] -> digits f ->
  operands_from_str (48 :: i ++ [46] ++ f) = operands_from_str (i ++ [46] ++ f).
Proof.
  intros D N Df.
  assert (D0 : digits (48 :: i)) by (constructor; [unfold digit_char; lia|auto]).
  rewrite (from_str_plain (i ++ _)) by now apply not_minus_digits.
  rewrite (from_str_plain (48 :: _)) by congruence.
  cbn [app]. unfold from_abs.
  rewrite (f64_from_str_sign [] (48 :: i ++ 46 :: f) (or_introl eq_refl) (no_sign_digits (48 :: i) (46 :: f) D0 ltac:(discriminate)) ltac:(discriminate) : f64_from_str (48 :: i ++ 46 :: f) = _).
  rewrite (f64_from_str_sign [] (i ++ 46 :: f) (or_introl eq_refl) (no_sign_digits i _ D N) ltac:(destruct i; discriminate) : f64_from_str (i ++ 46 :: f) = _).
  change (48 :: i ++ 46 :: f) with ((48 :: i) ++ 46 :: f).
  rewrite !parse_number_frac by (auto; destruct i; easy). cbn [ok_or rbind is_minus].
  rewrite !find_byte_app by (apply digits_not_in; auto; unfold digit_char; lia).
  destruct (slices_at (48 :: i) f (ascii_head_digits' f Df)) as [S1 S2]. rewrite S1, S2. clear S1 S2.
  destruct (slices_at i f (ascii_head_digits' f Df)) as [S1 S2]. rewrite S1, S2. cbn [rbind].
  rewrite u64_leading0 by auto.
  replace (dval ((48 :: i) ++ f)) with (dval (i ++ f)); [reflexivity|].
  cbn [app dval]. lia.
Qed.

(** ** C11 - C15 *)
Lemma C11_lemma x : x < 2 ^ 64 ->
  nearest64 (IZR (Z.of_N x)) (op_n (operands_from_unsigned x)) /\
  op_i (operands_from_unsigned x) = x /\ op_v (operands_from_unsigned x) = 0 /\
  op_w (operands_from_unsigned x) = 0 /\ op_f (operands_from_unsigned x) = 0 /\
  op_t (operands_from_unsigned x) = 0.
Proof. intros _. split; [apply f64_of_N_nearest|]. auto. Qed.

Ltac Zify.zify_post_hook ::= Z.div_mod_to_equations.
Lemma wrap_small b z : (1 <= b)%Z -> (- 2 ^ (b - 1) <= z < 2 ^ (b - 1))%Z -> wrap_signed b z = z.
Proof.
  intros B H. unfold wrap_signed. cbv zeta.
  assert (E : (2 ^ b = 2 * 2 ^ (b - 1))%Z) by (rewrite <- Z.pow_succ_r by lia; f_equal; lia).
  assert (P : (0 < 2 ^ (b - 1))%Z) by (apply Z.pow_pos_nonneg; lia).
  rewrite E in *. destruct (Z.neg_nonneg_cases z) as [L|L].
  - assert (M : (z mod (2 * 2 ^ (b - 1)) = z + 2 * 2 ^ (b - 1))%Z).
    { rewrite <- (Z.mod_small (z + 2 * 2 ^ (b - 1)) (2 * 2 ^ (b - 1))) by lia.
      replace (z + 2 * 2 ^ (b - 1))%Z with (z + 1 * (2 * 2 ^ (b - 1)))%Z by lia. now rewrite Z_mod_plus_full. }
    rewrite M. destruct (Z.ltb_spec (z + 2 * 2 ^ (b - 1)) (2 ^ (b - 1))); lia.
  - rewrite Z.mod_small by lia. destruct (Z.ltb_spec z (2 ^ (b - 1))); lia.
Qed.

Lemma C12_lemma z : (- 2 ^ 63 <= z < 2 ^ 63)%Z ->
  (z = (- 2 ^ 63)%Z /\ operands_from_signed W64 z = Err "Number too big") \/
  (z <> (- 2 ^ 63)%Z /\ exists n, operands_from_signed W64 z = Ok (mkOps n (Z.to_N (Z.abs z)) 0 0 0 0) /\
     nearest64 (IZR (Z.abs z)) n).
Proof.
  intros H. unfold operands_from_signed. cbn [isize_bits]. change (64 - 1)%Z with 63%Z.
  rewrite wrap_small by (change (64 - 1)%Z with 63%Z; lia). cbv zeta.
  destruct (Z.eqb_spec z (- 2 ^ 63)) as [->|E]; [left; auto|right].
  split; [exact E|]. eexists. split; [reflexivity|].
  replace (IZR (Z.abs z)) with (IZR (Z.of_N (Z.to_N (Z.abs z)))) by (f_equal; lia). apply f64_of_N_nearest.
Qed.

Lemma C13_lemma z : (- 2 ^ 31 < z < 2 ^ 31)%Z -> operands_from_signed W32 z = operands_from_signed W64 z.
Proof.
  intros H. unfold operands_from_signed. cbn [isize_bits].
  change (64 - 1)%Z with 63%Z. change (32 - 1)%Z with 31%Z.
  rewrite !wrap_small by (change (64 - 1)%Z with 63%Z; change (32 - 1)%Z with 31%Z; lia). cbv zeta.
  destruct (Z.eqb_spec z (- 2 ^ 31)); [lia|]. destruct (Z.eqb_spec z (- 2 ^ 63)); [lia|]. reflexivity.
Qed.
(** exactly what happens on a 32-bit target: the value is taken modulo 2^32 *)
Lemma C13_wrap z : exists k, wrap_signed 32 z = (z + k * 2 ^ 32)%Z.
Proof.
  unfold wrap_signed. cbv zeta. rewrite Z.mod_eq by lia.
  destruct (Z.ltb_spec (z - 2 ^ 32 * (z / 2 ^ 32)) (2 ^ (32 - 1))).
  - exists (- (z / 2 ^ 32))%Z. lia.
  - exists (- (z / 2 ^ 32) - 1)%Z. lia.
Qed.

(** ** C13, exactly *)
Lemma C13_exact_lemma z : (- 2 ^ 63 <= z < 2 ^ 63)%Z ->
  (operands_from_signed W32 z = operands_from_signed W64 z <-> (- 2 ^ 31 < z < 2 ^ 31)%Z).
Proof.
  intros R. split; [|apply C13_lemma]. intros H.
  destruct (Z.lt_ge_cases (Z.abs z) (2 ^ 31)) as [L|L]; [lia|exfalso].
  unfold operands_from_signed in H. cbn [isize_bits] in H. change (64 - 1)%Z with 63%Z in H. change (32 - 1)%Z with 31%Z in H.
  rewrite (wrap_small 64) in H by (change (64 - 1)%Z with 63%Z; lia). cbv zeta in H.
  assert (B : (- 2 ^ 31 <= wrap_signed 32 z < 2 ^ 31)%Z).
  { unfold wrap_signed. cbv zeta. pose proof (Z.mod_pos_bound z (2 ^ 32) ltac:(lia)).
    change (32 - 1)%Z with 31%Z. destruct (Z.ltb_spec (z mod 2 ^ 32) (2 ^ 31)); lia. }
  destruct (Z.eqb_spec (wrap_signed 32 z) (- 2 ^ 31)), (Z.eqb_spec z (- 2 ^ 63)); try discriminate H.
  - destruct (C13_wrap z) as (k & K). subst z. vm_compute in e. discriminate.
  - injection H as _ H. lia.
Qed.
Lemma C13_modulo z : exists x, (- 2 ^ 31 <= x < 2 ^ 31)%Z /\ (x mod 2 ^ 32 = z mod 2 ^ 32)%Z /\
  operands_from_signed W32 z =
    if (x =? - 2 ^ 31)%Z then Err "Number too big" else Ok (operands_from_unsigned (Z.to_N (Z.abs x))).
Proof.
  exists (wrap_signed 32 z). split; [|split].
  - unfold wrap_signed. cbv zeta. pose proof (Z.mod_pos_bound z (2 ^ 32) ltac:(lia)).
    change (32 - 1)%Z with 31%Z. destruct (Z.ltb_spec (z mod 2 ^ 32) (2 ^ 31)); lia.
  - destruct (C13_wrap z) as (k & ->). apply Z.mod_add. lia.
  - reflexivity.
Qed.

Lemma wrap_opp b z : (1 <= b)%Z ->
  wrap_signed b (- z) = (- wrap_signed b z)%Z \/
  (wrap_signed b z = (- 2 ^ (b - 1))%Z /\ wrap_signed b (- z) = (- 2 ^ (b - 1))%Z).
Proof.
  intros B. unfold wrap_signed. cbv zeta.
  assert (E : (2 ^ b = 2 * 2 ^ (b - 1))%Z) by (rewrite <- Z.pow_succ_r by lia; f_equal; lia).
  assert (P : (0 < 2 ^ (b - 1))%Z) by (apply Z.pow_pos_nonneg; lia).
  rewrite E. set (h := (2 ^ (b - 1))%Z) in *.
  destruct (Z.eq_dec (z mod (2 * h)) 0) as [Z0|Z0].
  - rewrite (Z_mod_zero_opp_full _ _ Z0), Z0.
    destruct (Z.ltb_spec 0 h); lia.
  - rewrite (Z_mod_nz_opp_full _ _ Z0).
    assert (R : (0 <= z mod (2 * h) < 2 * h)%Z) by (apply Z.mod_pos_bound; lia).
    destruct (Z.ltb_spec (2 * h - z mod (2 * h)) h); destruct (Z.ltb_spec (z mod (2 * h)) h); lia.
Qed.
Lemma C14_lemma w z : operands_from_signed w (- z) = operands_from_signed w z.
Proof.
  unfold operands_from_signed. cbv zeta.
  destruct (wrap_opp (isize_bits w) z) as [E|[E1 E2]].
  - destruct w; cbn; lia.
  - rewrite E, Z.abs_opp. set (x := wrap_signed (isize_bits w) z).
    assert (X : (- 2 ^ (isize_bits w - 1) <= x < 2 ^ (isize_bits w - 1))%Z).
    { unfold x, wrap_signed. cbv zeta.
      assert (M := Z.mod_pos_bound z (2 ^ isize_bits w)).
      destruct w; cbn [isize_bits] in *; change (64 - 1)%Z with 63%Z; change (32 - 1)%Z with 31%Z.
      - destruct (Z.ltb_spec (z mod 2 ^ 32) (2 ^ 31)); lia.
      - destruct (Z.ltb_spec (z mod 2 ^ 64) (2 ^ 63)); lia. }
    destruct (Z.eqb_spec (- x) (- 2 ^ (isize_bits w - 1))); [lia|].
    destruct (Z.eqb_spec x (- 2 ^ (isize_bits w - 1))) as [Q|Q]; [|reflexivity].
    exfalso.
    assert (K : (- 2 ^ (isize_bits w - 1) <= wrap_signed (isize_bits w) (- z) < 2 ^ (isize_bits w - 1))%Z).
    { unfold wrap_signed. cbv zeta.
      assert (M := Z.mod_pos_bound (- z) (2 ^ isize_bits w)).
      destruct w; cbn [isize_bits] in *; change (64 - 1)%Z with 63%Z; change (32 - 1)%Z with 31%Z.
      - destruct (Z.ltb_spec ((- z) mod 2 ^ 32) (2 ^ 31)); lia.
      - destruct (Z.ltb_spec ((- z) mod 2 ^ 64) (2 ^ 63)); lia. }
    rewrite E in K. fold x in K. lia.
  - rewrite E1, E2. reflexivity.
Qed.

Lemma C15_lemma z i :
  (Z.abs z <= 2 ^ 53)%Z -> digits i -> i <> [] -> dval i = Z.to_N (Z.abs z) ->
  operands_from_str ((if (z <? 0)%Z then [45] else []) ++ i) = operands_from_signed W64 z.
Proof.
  intros H D N V.
  rewrite from_str_int; [|destruct (z <? 0)%Z; [now right|now left]|auto|auto].
  rewrite f64_of_N_trunc_exact by lia. rewrite V.
  unfold operands_from_signed. cbn [isize_bits]. change (64 - 1)%Z with 63%Z.
  rewrite wrap_small by (change (64 - 1)%Z with 63%Z; lia). cbv zeta.
  destruct (Z.eqb_spec z (- 2 ^ 63)); [lia|]. reflexivity.
Qed.
Lemma C15_unsigned x i : x <= 2 ^ 53 -> digits i -> i <> [] -> dval i = x ->
  operands_from_str i = Ok (operands_from_unsigned x).
Proof.
  intros H D N V. rewrite (from_str_int [] i (or_introl eq_refl) D N : operands_from_str i = _). subst x.
  rewrite f64_of_N_trunc_exact by lia. reflexivity.
Qed.
