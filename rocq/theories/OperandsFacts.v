(** * Facts about [operands_from_str] *)
From Coq Require Import Floats.SpecFloat ZifyBool ZifyN ZifyNat.
From Verif Require Import Base F64 Operands Ast Spec DigitFacts.
Open Scope N_scope.

Notation dec64 := (dec_to_float 53 1024 false).

(** ** parse_number *)
Lemma parse_scientific_some s x : parse_scientific s = Some x ->
  exists sg d, s = sg ++ d /\ sign_opt sg /\ digits d /\ d <> [].
Proof.
  unfold parse_scientific. destruct s as [|c r]; [easy|].
  destruct (N.eqb_spec c 45) as [->|E1]; [|destruct (N.eqb_spec c 43) as [->|E2]].
  - destruct r as [|c r]; [easy|]. destruct (forallb is_digit (c :: r)) eqn:E; [|easy].
    intros _. exists [45], (c :: r). apply digits_forallb in E. unfold sign_opt. repeat split; auto; easy.
  - destruct r as [|c r]; [easy|]. destruct (forallb is_digit (c :: r)) eqn:E; [|easy].
    intros _. exists [43], (c :: r). apply digits_forallb in E. unfold sign_opt. repeat split; auto; easy.
  - destruct (forallb is_digit (c :: r)) eqn:E; [|easy].
    intros _. exists [], (c :: r). apply digits_forallb in E. unfold sign_opt. repeat split; auto; easy.
Qed.
Lemma parse_scientific_ok sg d : sign_opt sg -> digits d -> d <> [] ->
  exists x, parse_scientific (sg ++ d) = Some x.
Proof.
  intros S D N. unfold parse_scientific. destruct d as [|c r]; [easy|].
  assert (D' := D). apply digits_forallb in D. apply digits_cons in D' as [Hc _]. unfold digit_char in Hc.
  destruct S as [->|[->| ->]]; cbn [app].
  - destruct (N.eqb_spec c 45); [lia|]. destruct (N.eqb_spec c 43); [lia|]. rewrite D. eauto.
  - cbn [N.eqb Pos.eqb]. rewrite D. eauto.
  - cbn [N.eqb Pos.eqb]. rewrite D. eauto.
Qed.

Lemma head_not_digit_exp ex : exponent ex -> forall c r, ex = c :: r -> is_digit c = false /\ c <> 46.
Proof.
  intros [->|(c & sg & d & -> & H & _)] c' r' E; [easy|]. inversion E; subst.
  destruct H as [->| ->]; split; easy.
Qed.

Lemma parse_number_int i ex : digits i -> i <> [] -> exponent ex ->
  exists e, parse_number (i ++ ex) = Some (dval i, e) /\ (ex = [] -> e = 0%Z).
Proof.
  intros D N X. unfold parse_number.
  rewrite span_app; [|now apply digits_forallb|intros c r E; now apply (head_not_digit_exp ex X c r)].
  destruct X as [->|(c & sg & d & -> & H & Sg & Dd & Nd)].
  - rewrite app_nil_r. destruct i as [|c r]; [easy|]. rewrite digits_value_dval. exists 0%Z. split; auto.
  - assert (C : c =? 46 = false) by (destruct H as [->| ->]; reflexivity).
    rewrite C, app_nil_r. destruct i as [|c' r]; [easy|].
    assert (C2 : (c =? 101) || (c =? 69) = true) by (destruct H as [->| ->]; reflexivity).
    rewrite C2. destruct (parse_scientific_ok sg d Sg Dd Nd) as [x ->].
    rewrite digits_value_dval. eexists. split; [reflexivity|easy].
Qed.

Lemma parse_number_frac i f : digits i -> digits f -> i ++ f <> [] ->
  parse_number (i ++ 46 :: f) = Some (dval (i ++ f), (- Z.of_nat (List.length f))%Z).
Proof.
  intros Di Df N. unfold parse_number.
  rewrite span_app; [|now apply digits_forallb|intros c r E; inversion E; subst; reflexivity].
  cbn [N.eqb Pos.eqb].
  rewrite span_all by now apply digits_forallb.
  destruct (i ++ f) as [|c r] eqn:E; [easy|]. now rewrite digits_value_dval.
Qed.

(** what a successful parse looks like *)
Lemma parse_number_some s m e : parse_number s = Some (m, e) ->
  (exists i ex, s = i ++ ex /\ digits i /\ i <> [] /\ exponent ex) \/
  (exists i f ex, s = i ++ 46 :: f ++ ex /\ digits i /\ digits f /\ i ++ f <> [] /\ exponent ex).
Proof.
  unfold parse_number.
  pose proof (span_spec is_digit s) as H. destruct (span is_digit s) as [i r].
  destruct H as (-> & Hi & Hr). apply digits_forallb in Hi.
  assert (X : forall r2, match r2 with
      | [] => Some (digits_value i, 0%Z)
      | c :: r3 => if (c =? 101) || (c =? 69) then
            match parse_scientific r3 with Some ex => Some (digits_value i, (0 + ex)%Z) | None => None end
          else None end <> None -> exponent r2).
  { intros [|c r3] K; [now left|].
    destruct ((c =? 101) || (c =? 69)) eqn:E; [|easy].
    destruct (parse_scientific r3) eqn:E3; [|easy].
    apply parse_scientific_some in E3 as (sg & d & -> & A & B & C).
    right. exists c, sg, d. repeat split; auto. lia. }
  destruct r as [|c r].
  - rewrite app_nil_r. destruct i as [|c r]; [easy|]. intros _. left.
    exists (c :: r), []. rewrite app_nil_r. repeat split; auto; try easy. now left.
  - destruct (N.eqb_spec c 46) as [->|E].
    + pose proof (span_spec is_digit r) as H. destruct (span is_digit r) as [f r2].
      destruct H as (-> & Hf & Hr2). apply digits_forallb in Hf.
      destruct (i ++ f) as [|c l] eqn:E; [easy|]. intros H. right.
      exists i, f, r2. rewrite E. repeat split; auto; try easy.
      destruct r2 as [|c2 r3]; [now left|].
      apply X. destruct ((c2 =? 101) || (c2 =? 69)); [|easy]. destruct (parse_scientific r3); easy.
    + rewrite app_nil_r. destruct i as [|c1 i1]; [easy|]. intros H. left.
      exists (c1 :: i1), (c :: r). repeat split; auto; try easy.
      apply X. destruct ((c =? 101) || (c =? 69)); [|easy]. destruct (parse_scientific r); easy.
Qed.

Lemma to_lower_eq c : to_lower c = ascii_lower c.
Proof. reflexivity. Qed.
Lemma parse_inf_nan_some neg s : (exists x, parse_inf_nan neg s = Some x) <-> special_word s.
Proof.
  unfold parse_inf_nan, special_word. change (List.map to_lower s) with (List.map ascii_lower s).
  cbv zeta. set (l := List.map ascii_lower s).
  destruct (bytes_eqb l (bs "nan")) eqn:E1.
  { apply bytes_eqb_eq in E1. rewrite E1. split; [intros _; cbn; auto|eauto]. }
  destruct (bytes_eqb l (bs "inf")) eqn:E2.
  { apply bytes_eqb_eq in E2. rewrite E2. split; [intros _; cbn; auto|cbn; eauto]. }
  destruct (bytes_eqb l (bs "infinity")) eqn:E3.
  { apply bytes_eqb_eq in E3. rewrite E3. split; [intros _; cbn; auto|cbn; eauto]. }
  apply bytes_eqb_neq in E1, E2, E3. cbn [orb].
  split; [intros [x H]; easy|]. intros [H|[H|[H|[]]]]; congruence.
Qed.

(** ** f64::from_str *)
Definition number_syntax (s : bytes) : Prop :=
  (exists i ex, s = i ++ ex /\ digits i /\ i <> [] /\ exponent ex) \/
  (exists i f ex, s = i ++ 46 :: f ++ ex /\ digits i /\ digits f /\ i ++ f <> [] /\ exponent ex) \/
  special_word s.
Lemma f64_from_str_some s x : f64_from_str s = Some x ->
  exists sg t, s = sg ++ t /\ sign_opt sg /\ number_syntax t.
Proof.
  unfold f64_from_str, float_from_str. destruct s as [|c r]; [easy|]. cbv zeta.
  intros H.
  assert (G : forall t neg, match t with [] => None | _ :: _ =>
       match parse_number t with Some (m, e) => Some (dec_to_float 53 1024 neg m e)
       | None => parse_inf_nan neg t end end = Some x -> number_syntax t).
  { intros t neg. destruct t as [|c0 t0]; [easy|]. unfold number_syntax.
    destruct (parse_number (c0 :: t0)) as [[m e]|] eqn:E.
    - intros _. apply parse_number_some in E as [E|E]; auto.
    - intros K. right. right. apply (parse_inf_nan_some neg). eauto. }
  destruct (N.eqb_spec c 45) as [->|E1]; [|destruct (N.eqb_spec c 43) as [->|E2]].
  - exists [45], r. cbn [orb] in H. split; [reflexivity|]. split; [unfold sign_opt; auto|]. eapply G, H.
  - exists [43], r. cbn [orb] in H. split; [reflexivity|]. split; [unfold sign_opt; auto|]. eapply G, H.
  - exists [], (c :: r). cbn [orb] in H. split; [reflexivity|]. split; [unfold sign_opt; auto|]. eapply G, H.
Qed.

(** a float text with a sign in front; [t] must not itself start with a sign *)
Definition no_sign (t : bytes) : Prop := forall r, t <> 45 :: r /\ t <> 43 :: r.
Definition is_minus (sg : bytes) : bool := match sg with 45 :: _ => true | _ => false end.
Lemma f64_from_str_sign sg t : sign_opt sg -> no_sign t -> t <> [] ->
  f64_from_str (sg ++ t) =
  match parse_number t with
  | Some (m, e) => Some (dec_to_float 53 1024 (is_minus sg) m e)
  | None => parse_inf_nan (is_minus sg) t
  end.
Proof.
  intros S N T. unfold f64_from_str, float_from_str.
  destruct t as [|c r]; [easy|].
  destruct S as [->|[->| ->]]; cbn [app is_minus].
  - destruct (N r) as [N1 N2].
    assert (E1 : c =? 45 = false) by (apply N.eqb_neq; congruence).
    assert (E2 : c =? 43 = false) by (apply N.eqb_neq; congruence).
    rewrite E1, E2. reflexivity.
  - reflexivity.
  - reflexivity.
Qed.

Lemma no_sign_digits i t : digits i -> i <> [] -> no_sign (i ++ t).
Proof.
  intros D N r. destruct i as [|c i]; [easy|]. apply digits_cons in D as [Hc _]. unfold digit_char in Hc.
  cbn. split; intros E; inversion E; lia.
Qed.
Lemma special_head w : special_word w -> exists c r, w = c :: r /\ 65 <= c <= 122 /\ is_digit c = false.
Proof.
  unfold special_word. destruct w as [|c r]; cbn [List.map].
  - intros [H|[H|[H|[]]]]; discriminate H.
  - intros H. exists c, r. split; [reflexivity|].
    assert (ascii_lower c = 105 \/ ascii_lower c = 110) as L.
    { destruct H as [H|[H|[H|[]]]]; cbn in H; inversion H; auto. }
    unfold ascii_lower in L. destruct ((65 <=? c) && (c <=? 90)) eqn:E.
    + assert (c = 73 \/ c = 78) as [->| ->] by lia; split; try reflexivity; lia.
    + destruct L as [->| ->]; split; try reflexivity; lia.
Qed.
Lemma parse_number_special w : special_word w -> parse_number w = None.
Proof.
  intros H. destruct (special_head w H) as (c & r & -> & H1 & H2).
  unfold parse_number. cbn [span]. rewrite H2.
  assert (E : c =? 46 = false) by lia. now rewrite E.
Qed.

(** ** The three conversions that succeed *)
Definition sub_prefix (sg : bytes) := sg.

Lemma slice_from_1 c r : is_char_boundary (c :: r) 1 = true -> slice_from (c :: r) 1 = Ok r.
Proof. intros H. unfold slice_from. now rewrite H. Qed.

(** the part of the conversion after the optional minus sign (operands.rs:83-120) *)
Definition from_abs (abs_str : bytes) : res operands :=
  let? absolute_value := ok_or "Incorrect number passed!" (f64_from_str abs_str) in
  match find_byte 46 abs_str with
  | Some dec_pos =>
      let? int_str := slice_to abs_str dec_pos in
      let? dec_str := slice_from abs_str (S dec_pos) in
      let? integer_digits :=
        ok_or "Could not convert string to integer!" (u64_from_str int_str) in
      let backtrace := trim_end_matches 48 dec_str in
      let num_fraction_digits0 := N.of_nat (List.length dec_str) in
      let num_fraction_digits := N.of_nat (List.length backtrace) in
      let? fraction_digits0 :=
        ok_or "Could not convert string to integer!" (u64_from_str dec_str) in
      let fraction_digits :=
        match u64_from_str backtrace with Some x => x | None => 0 end in
      Ok (mkOps absolute_value integer_digits num_fraction_digits0 num_fraction_digits
                fraction_digits0 fraction_digits)
  | None =>
      Ok (mkOps absolute_value (float_to_u64 absolute_value) 0 0 0 0)
  end.
Lemma operands_from_str_eq s : operands_from_str s =
  let? a := match s with c :: _ => if c =? 45 then slice_from s 1 else Ok s | [] => Ok s end in from_abs a.
Proof. reflexivity. Qed.

Definition ascii_head (t : bytes) : Prop := match t with [] => True | c :: _ => c < 128 \/ 192 <= c end.
Lemma boundary_cons c t : is_char_boundary (c :: t) 1 = match t with [] => true | b :: _ => (b <? 128) || (192 <=? b) end.
Proof. unfold is_char_boundary. cbn. destruct t; reflexivity. Qed.

Lemma from_str_minus t : ascii_head t -> operands_from_str (45 :: t) = from_abs t.
Proof.
  intros H. rewrite operands_from_str_eq. cbn [N.eqb Pos.eqb].
  unfold slice_from. rewrite boundary_cons.
  destruct t as [|b t]; [reflexivity|]. cbn in H.
  assert (E : (b <? 128) || (192 <=? b) = true) by lia. rewrite E. reflexivity.
Qed.
Lemma from_str_plain t : (forall r, t <> 45 :: r) -> operands_from_str t = from_abs t.
Proof.
  intros H. rewrite operands_from_str_eq. destruct t as [|c t]; [reflexivity|].
  destruct (N.eqb_spec c 45) as [->|E]; [elim (H t eq_refl)|reflexivity].
Qed.

(** slices around the decimal point *)
Lemma slices_at a b : ascii_head b ->
  slice_to (a ++ 46 :: b) (List.length a) = Ok a /\
  slice_from (a ++ 46 :: b) (S (List.length a)) = Ok b.
Proof.
  intros H. split.
  - unfold slice_to, is_char_boundary.
    assert (E : nth_error (a ++ 46 :: b) (List.length a) = Some 46).
    { rewrite nth_error_app2 by lia. now rewrite Nat.sub_diag. }
    assert (F : firstn (List.length a) (a ++ 46 :: b) = a).
    { rewrite firstn_app, Nat.sub_diag, firstn_all. apply app_nil_r. }
    rewrite F. destruct (List.length a); [reflexivity|]. rewrite E. reflexivity.
  - unfold slice_from, is_char_boundary.
    assert (E : nth_error (a ++ 46 :: b) (S (List.length a)) = nth_error b 0).
    { rewrite nth_error_app2 by lia. replace (S (List.length a) - List.length a)%nat with 1%nat by lia.
      reflexivity. }
    assert (F : skipn (S (List.length a)) (a ++ 46 :: b) = b).
    { rewrite skipn_app, skipn_all2 by lia.
      replace (S (List.length a) - List.length a)%nat with 1%nat by lia. reflexivity. }
    rewrite E, F. destruct b as [|c b]; cbn [nth_error].
    + rewrite app_length. cbn. rewrite Nat.add_1_r, Nat.eqb_refl. reflexivity.
    + cbn in H. assert (B : (c <? 128) || (192 <=? c) = true) by lia. now rewrite B.
Qed.
Lemma ascii_head_digits d t : digits d -> d <> [] -> ascii_head (d ++ t).
Proof.
  intros D N. destruct d as [|c d]; [easy|]. apply digits_cons in D as [H _]. unfold digit_char in H. cbn. lia.
Qed.
Lemma ascii_head_digits' d : digits d -> ascii_head d.
Proof. destruct d as [|c d]; [easy|]. intros D. apply digits_cons in D as [H _]. unfold digit_char in H. cbn. lia. Qed.

(** case 1: a numeral with a point *)
Lemma from_abs_frac plus i f g :
  plus = [] \/ plus = [43] ->
  digits i -> digits f -> i <> [] -> f <> [] -> dval i < 2 ^ 64 -> dval f < 2 ^ 64 ->
  without_trailing_zeros f g ->
  from_abs (plus ++ i ++ 46 :: f) =
  Ok (mkOps (dec64 (dval (i ++ f)) (- Z.of_nat (List.length f)))
            (dval i) (N.of_nat (List.length f)) (N.of_nat (List.length g)) (dval f) (dval g)).
Proof.
  intros P Di Df Ni Nf Bi Bf [[z Hz] Hg]. unfold from_abs.
  rewrite f64_from_str_sign; [|destruct P as [->| ->]; unfold sign_opt; auto|now apply no_sign_digits|destruct i; easy].
  rewrite parse_number_frac by (auto; destruct i; easy).
  assert (M : is_minus plus = false) by (destruct P as [->| ->]; reflexivity).
  rewrite M. cbn [ok_or rbind].
  rewrite app_assoc, find_byte_app.
  2:{ intros K. apply in_app_or in K as [K|K].
      - destruct P as [->| ->]; [easy|]. destruct K as [K|[]]; discriminate K.
      - revert K. apply digits_not_in; auto. unfold digit_char. lia. }
  destruct (slices_at (plus ++ i) f (ascii_head_digits' f Df)) as [-> ->].
  cbn [rbind].
  assert (U : u64_from_str (plus ++ i) = Some (dval i)).
  { destruct P as [->| ->]; [now apply u64_from_str_digits|].
    cbn [app]. unfold u64_from_str, unsigned_from_str. cbn [N.eqb Pos.eqb].
    destruct i as [|c i]; [easy|]. rewrite checked_digits_ok; [f_equal; lia|assumption|].
    change (2 ^ 64) with 18446744073709551616 in Bi. unfold u64_max. lia. }
  rewrite U. cbn [ok_or rbind].
  rewrite (u64_from_str_digits f) by auto. cbn [ok_or rbind].
  destruct (trim_end_spec 48 f) as [[z' Hz'] Hg'].
  assert (G : trim_end_matches 48 f = g).
  { apply (trim_unique 48 _ z' _ z); auto. congruence. }
  rewrite G.
  assert (Dg : digits g) by (rewrite Hz in Df; apply digits_app in Df; tauto).
  assert (T : match u64_from_str g with Some x => x | None => 0 end = dval g).
  { destruct g as [|c g']; [reflexivity|].
    rewrite u64_from_str_digits; auto; [easy|].
    eapply N.le_lt_trans; [|exact Bf]. rewrite Hz, dval_app, dval_repeat0.
    assert (0 < 10 ^ N.of_nat (List.length (repeat 48 z))) by (apply N.neq_0_lt_0, N.pow_nonzero; lia). nia. }
  now rewrite T.
Qed.

(** case 2: digits, optional exponent *)
Lemma in_exponent ex : exponent ex -> ~ In 46 ex.
Proof.
  intros [->|(c & sg & d & -> & H & Sg & Dd & _)]; [easy|].
  intros [K|K]; [destruct H; subst; discriminate|].
  apply in_app_or in K as [K|K].
  - destruct Sg as [->|[->| ->]]; [easy| |]; destruct K as [K|[]]; discriminate K.
  - revert K. apply digits_not_in; auto. unfold digit_char. lia.
Qed.
Lemma in_sign sg : sign_opt sg -> ~ In 46 sg.
Proof. intros [->|[->| ->]]; [easy| |]; intros [K|[]]; discriminate K. Qed.

Lemma from_abs_int sg i ex : sign_opt sg -> digits i -> i <> [] -> exponent ex ->
  exists e, (ex = [] -> e = 0%Z) /\
  from_abs (sg ++ i ++ ex) =
  (let x := dec_to_float 53 1024 (is_minus sg) (dval i) e in Ok (mkOps x (float_to_u64 x) 0 0 0 0)).
Proof.
  intros S D N X.
  destruct (parse_number_int i ex D N X) as (e & P & E). exists e. split; [exact E|].
  unfold from_abs.
  rewrite f64_from_str_sign; [|auto|now apply no_sign_digits|destruct i; easy].
  rewrite P. cbn [ok_or rbind].
  assert (F : find_byte 46 (sg ++ i ++ ex) = None).
  { apply find_byte_none. intros K. apply in_app_or in K as [K|K]; [now apply in_sign in K|].
    apply in_app_or in K as [K|K]; [|now apply in_exponent in K].
    revert K. apply digits_not_in; auto. unfold digit_char. lia. }
  now rewrite F.
Qed.

(** case 3: inf, infinity, nan *)
Lemma special_no_point w : special_word w -> ~ In 46 w.
Proof.
  intros H K. unfold special_word in H.
  apply (in_map ascii_lower) in K. change (ascii_lower 46) with 46 in K.
  destruct H as [H|[H|[H|[]]]]; rewrite <- H in K; cbn in K;
    repeat (destruct K as [K|K]; [discriminate K|]); exact K.
Qed.
Lemma special_no_sign w : special_word w -> no_sign w.
Proof.
  intros H r. destruct (special_head w H) as (c & t & -> & H1 & _).
  split; intros E; inversion E; lia.
Qed.
Lemma from_abs_special sg w : sign_opt sg -> special_word w ->
  exists x, parse_inf_nan (is_minus sg) w = Some x /\
  from_abs (sg ++ w) = Ok (mkOps x (float_to_u64 x) 0 0 0 0).
Proof.
  intros S H. unfold from_abs.
  rewrite f64_from_str_sign; [|auto|now apply special_no_sign|].
  2:{ destruct (special_head w H) as (c & t & -> & _). easy. }
  rewrite parse_number_special by auto.
  destruct (proj2 (parse_inf_nan_some (is_minus sg) w) H) as [x E]. exists x. split; [exact E|].
  rewrite E. cbn [ok_or rbind].
  assert (F : find_byte 46 (sg ++ w) = None).
  { apply find_byte_none. intros K. apply in_app_or in K as [K|K]; [now apply in_sign in K|].
    now apply special_no_point in K. }
  now rewrite F.
Qed.

(** ** C05: the accepted strings *)
Lemma from_abs_accepts t : accepted_abs t -> exists po, from_abs t = Ok po.
Proof.
  intros [sg i ex S D N X|sg w S W|plus i f P Di Df Ni Nf Bi Bf].
  - destruct (from_abs_int sg i ex S D N X) as (e & _ & ->). eauto.
  - destruct (from_abs_special sg w S W) as (x & _ & ->). eauto.
  - destruct (trim_end_spec 48 f) as [T1 T2].
    exists (mkOps (dec64 (dval (i ++ f)) (- Z.of_nat (List.length f)))
            (dval i) (N.of_nat (List.length f)) (N.of_nat (List.length (trim_end_matches 48 f)))
            (dval f) (dval (trim_end_matches 48 f))).
    apply from_abs_frac; auto. split; auto.
Qed.

Lemma rbind_ok {A B} (x : res A) (f : A -> res B) b : rbind x f = Ok b -> exists a, x = Ok a /\ f a = Ok b.
Proof. destruct x; [eauto|easy|easy]. Qed.
Lemma ok_or_ok {A} e (o : option A) a : ok_or e o = Ok a -> o = Some a.
Proof. destruct o; cbn; congruence. Qed.

Lemma from_abs_ok t po : from_abs t = Ok po -> accepted_abs t.
Proof.
  unfold from_abs. intros H. apply rbind_ok in H as (x & Hx & H). apply ok_or_ok in Hx.
  apply f64_from_str_some in Hx as (sg & u & -> & Sg & U).
  destruct (find_byte 46 (sg ++ u)) as [k|] eqn:F.
  - apply find_byte_some in F as (a & b & E & L & NI).
    assert (B : exists i f, digits i /\ u = i ++ 46 :: f).
    { destruct U as [(i & ex & -> & D & N & X)|[(i & f & ex & -> & Di & Df & N & X)|W]].
      - exfalso. assert (K : In 46 (sg ++ i ++ ex)) by (rewrite E; apply in_elt).
        apply in_app_or in K as [K|K]; [now apply in_sign in K|].
        apply in_app_or in K as [K|K]; [|now apply in_exponent in K].
        revert K. apply digits_not_in; auto. unfold digit_char. lia.
      - eauto.
      - exfalso. assert (K : In 46 (sg ++ u)) by (rewrite E; apply in_elt).
        apply in_app_or in K as [K|K]; [now apply in_sign in K|now apply special_no_point in K]. }
    destruct B as (i & fx & Di & Eu).
    assert (EA : a = sg ++ i /\ b = fx).
    { rewrite Eu in E. rewrite app_assoc in E.
      assert (N46 : ~ In 46 (sg ++ i)).
      { intros K. apply in_app_or in K as [K|K]; [now apply in_sign in K|].
        revert K. apply digits_not_in; auto. unfold digit_char. lia. }
      clear - E NI N46. revert a NI E.
      induction (sg ++ i) as [|c l IH]; intros [|c' a] NI E; cbn in E; inversion E; subst; auto.
      - elim NI. now left.
      - elim N46. now left.
      - destruct (IH (fun K => N46 (or_intror K)) a (fun K => NI (or_intror K)) H1) as [-> ->]. auto. }
    destruct EA as [-> ->]. clear E.
    rewrite Eu in *. subst k.
    apply rbind_ok in H as (is & H1 & H). apply rbind_ok in H as (ds & H2 & H).
    apply rbind_ok in H as (id & H3 & H). apply rbind_ok in H as (fd & H4 & H).
    apply ok_or_ok in H3, H4.
    assert (F1 : firstn (List.length (sg ++ i)) (sg ++ i ++ 46 :: fx) = sg ++ i)
      by (rewrite app_assoc, firstn_app, Nat.sub_diag, firstn_all; apply app_nil_r).
    assert (F2 : skipn (S (List.length (sg ++ i))) (sg ++ i ++ 46 :: fx) = fx)
      by (rewrite app_assoc, skipn_app, skipn_all2 by lia;
          replace (S (List.length (sg ++ i)) - List.length (sg ++ i))%nat with 1%nat by lia; reflexivity).
    unfold slice_to in H1. rewrite F1 in H1.
    destruct (is_char_boundary _ _) in H1; [|discriminate H1]. injection H1 as <-.
    unfold slice_from in H2. rewrite F2 in H2.
    destruct (is_char_boundary _ _) in H2; [|discriminate H2]. injection H2 as <-.
    (* the fraction part: digits only *)
    assert (Df : digits fx /\ fx <> [] /\ dval fx < 2 ^ 64).
    { apply u64_from_str_some in H4 as (d & [->|E] & D & Nd & _ & Bd); [auto|].
      exfalso. subst fx.
      destruct U as [(i' & ex & Eu' & D' & N & X)|[(i' & f & ex & Eu' & Di' & Df' & N & X)|W]].
      - assert (K : In 46 (i' ++ ex)) by (rewrite <- Eu'; apply in_elt).
        apply in_app_or in K as [K|K]; [|now apply in_exponent in K].
        revert K. apply digits_not_in; auto. unfold digit_char. lia.
      - assert (Q : i = i' /\ 43 :: d = f ++ ex).
        { assert (N1 : ~ In 46 i) by (apply digits_not_in; auto; unfold digit_char; lia).
          assert (N2 : ~ In 46 i') by (apply digits_not_in; auto; unfold digit_char; lia).
          clear - Eu' N1 N2. revert i' N2 Eu'.
          induction i as [|c l IH]; intros [|c' a] N2 E; cbn in E; inversion E; subst; auto.
          - elim N2. now left.
          - elim N1. now left.
          - destruct (IH (fun K => N1 (or_intror K)) a (fun K => N2 (or_intror K)) H1) as [-> ->]. auto. }
        destruct Q as [-> Q]. destruct f as [|c f].
        + destruct X as [->|(c & sg' & d' & -> & H0 & _)]; [easy|]. cbn in Q. inversion Q. destruct H0; congruence.
        + cbn in Q. inversion Q; subst c. apply digits_cons in Df' as [Dc _]. unfold digit_char in Dc. lia.
      - assert (K : In 46 (i ++ 46 :: 43 :: d)) by apply in_elt. now apply special_no_point in K. }
    destruct Df as (Df & Nf & Bf).
    (* the integer part *)
    apply u64_from_str_some in H3 as (d & E & D & Nd & _ & Bd).
    assert (Q : (sg = [] \/ sg = [43]) /\ i <> [] /\ dval i < 2 ^ 64).
    { destruct Sg as [->|[->| ->]]; cbn [app] in E.
      - destruct E as [->|E]; [repeat split; auto|].
        exfalso. subst i. apply digits_cons in Di as [Dc _]. unfold digit_char in Dc. lia.
      - destruct E as [E|E].
        + exfalso. subst d. apply digits_cons in D as [Dc _]. unfold digit_char in Dc. lia.
        + inversion E; subst. repeat split; auto.
      - exfalso. destruct E as [E|E]; [|discriminate E].
        subst d. apply digits_cons in D as [Dc _]. unfold digit_char in Dc. lia. }
    destruct Q as (Q & Ni & Bi). apply (acc_fraction sg i fx); auto.
  - apply find_byte_none in F.
    destruct U as [(i & ex & -> & D & N & X)|[(i & f & ex & -> & Di & Df & N & X)|W]].
    + now apply acc_integer.
    + elim F. rewrite app_assoc. apply in_elt.
    + now apply acc_special.
Qed.

Lemma accepted_abs_ascii t : accepted_abs t -> ascii_head t.
Proof.
  intros [sg i ex S D N X|sg w S W|plus i f P Di Df Ni Nf Bi Bf].
  - destruct S as [->|[->| ->]]; cbn; try lia. now apply ascii_head_digits.
  - destruct S as [->|[->| ->]]; cbn; try lia.
    destruct (special_head w W) as (c & r & -> & H & _). cbn. lia.
  - destruct P as [->| ->]; cbn; try lia. now apply ascii_head_digits.
Qed.

Theorem accepted_iff s : (exists po, operands_from_str s = Ok po) <-> accepted s.
Proof.
  split.
  - intros [po H]. rewrite operands_from_str_eq in H. apply rbind_ok in H as (t & H1 & H2).
    apply from_abs_ok in H2. exists t. split; [|exact H2].
    destruct s as [|c r].
    + inversion H1; subst. right. split; easy.
    + destruct (N.eqb_spec c 45) as [->|E].
      * left. unfold slice_from in H1. destruct (is_char_boundary _ _); [|easy]. inversion H1. reflexivity.
      * inversion H1; subst. right. split; [reflexivity|]. intros r' K. congruence.
  - intros (t & [->|[-> H]] & A).
    + rewrite from_str_minus by now apply accepted_abs_ascii. now apply from_abs_accepts.
    + rewrite from_str_plain by auto. now apply from_abs_accepts.
Qed.

(** ** C10: no panics on valid UTF-8 *)
Lemma utf8_head t : utf8_valid t = true -> ascii_head t.
Proof.
  destruct t as [|a r]; [easy|]. cbn [utf8_valid ascii_head].
  destruct (N.ltb_spec a 128); [lia|].
  destruct r as [|b r1]; [easy|].
  destruct (N.leb_spec 194 a); [lia|]. cbn [andb].
  destruct r1 as [|c r2]; [easy|].
  destruct (N.leb_spec 224 a); [lia|]. cbn [andb].
  destruct r2 as [|d r3]; [easy|].
  destruct (N.leb_spec 240 a); [lia|]. easy.
Qed.

Lemma from_abs_no_panic t w : from_abs t <> Panic w.
Proof.
  unfold from_abs. destruct (f64_from_str t) as [x|] eqn:E; [|easy]. cbn [ok_or rbind].
  destruct (find_byte 46 t) as [k|] eqn:F; [|easy].
  apply find_byte_some in F as (a & b & -> & <- & NI).
  assert (H : ascii_head b).
  { apply f64_from_str_some in E as (sg & u & E & S & U).
    assert (K : forall p q, p ++ 46 :: q = a ++ 46 :: b -> ~ In 46 p -> b = q).
    { clear - NI. induction a as [|c l IH]; intros [|c' p] q Q NP; cbn in Q; inversion Q; subst; auto.
      - elim NP. now left.
      - elim NI. now left.
      - eapply (IH (fun K => NI (or_intror K))); eauto. intros K. apply NP. now right. }
    destruct U as [(i & ex & -> & D & N & X)|[(i & f & ex & -> & Di & Df & N & X)|W]].
    - exfalso. assert (Q : In 46 (sg ++ i ++ ex)) by (rewrite <- E; apply in_elt).
      apply in_app_or in Q as [Q|Q]; [now apply in_sign in Q|].
      apply in_app_or in Q as [Q|Q]; [|now apply in_exponent in Q].
      revert Q. apply digits_not_in; auto. unfold digit_char. lia.
    - rewrite app_assoc in E. symmetry in E. apply K in E.
      + subst b. destruct f as [|c f].
        * destruct X as [->|(c & sg' & d' & -> & H0 & _)]; [easy|]. cbn. destruct H0; lia.
        * now apply ascii_head_digits.
      + intros Q. apply in_app_or in Q as [Q|Q]; [now apply in_sign in Q|].
        revert Q. apply digits_not_in; auto. unfold digit_char. lia.
    - exfalso. assert (Q : In 46 (sg ++ u)) by (rewrite <- E; apply in_elt).
      apply in_app_or in Q as [Q|Q]; [now apply in_sign in Q|now apply special_no_point in Q]. }
  destruct (slices_at a b H) as [-> ->]. cbn [rbind].
  destruct (u64_from_str a); [|easy]. cbn [ok_or rbind].
  destruct (u64_from_str b); easy.
Qed.

Theorem from_str_no_panic s w : utf8_valid s = true -> operands_from_str s <> Panic w.
Proof.
  intros V. destruct s as [|c r].
  - rewrite from_str_plain by easy. apply from_abs_no_panic.
  - destruct (N.eqb_spec c 45) as [->|E].
    + rewrite from_str_minus; [apply from_abs_no_panic|]. apply utf8_head. exact V.
    + rewrite from_str_plain; [apply from_abs_no_panic|]. intros r' K. congruence.
Qed.
