(** * C97, C98: negative exponents, locale by locale; the type a number is passed in *)
From Coq Require Import Reals Psatz Floats.SpecFloat.
From Flocq Require Import Core.Core IEEE754.BinarySingleNaN.
From Verif Require Import Base F64 SpecR Operands Ast LangId GenRs RustExpr PluralRules Tables Spec Cldr DigitFacts F64Facts OperandsFacts
  OperandsProps Shortest FloatProps GenFacts GenMeaning Represents ApiProps Conformance FloatConf ExpSpec ExpProps SampleProps BehaviourSpec LookSpec CodeShipped.
Open Scope N_scope.

(** a float that compares with the integers as a decimal does has its integer part *)
Lemma floor_represents po d : represents po d -> proper d -> small d ->
  valid_binary 53 1024 (op_n po) = true -> is_finite_SF (op_n po) = true ->
  Zfloor (SF2R radix2 (op_n po)) = Z.of_N (uts_i d).
Proof.
  intros R P [S _] V F. assert (Dp := den_pos d).
  assert (FD : uts_f d < uts_den d) by (rewrite <- (num_mod d P); apply N.mod_lt; lia).
  assert (I : uts_i d * uts_den d <= uts_num d) by (unfold uts_num, uts_i; lia).
  assert (I53 : uts_i d < 2 ^ 53) by nia.
  destruct (f64_of_N_exact (uts_i d)) as (A & B & _); [lia|].
  pose proof (rp_ge _ _ R (uts_i d) I53) as G. rewrite SFleb_correct, A in G; auto using valid_f64_of_N.
  rewrite (proj2 (N.leb_le _ _) I) in G. apply Zfloor_imp.
  assert (G1 : (IZR (Z.of_N (uts_i d)) <= SF2R radix2 (op_n po))%R) by (destruct (Rle_bool_spec (IZR (Z.of_N (uts_i d))) (SF2R radix2 (op_n po))); [assumption|discriminate]).
  split; [exact G1|].
  destruct (N.lt_ge_cases (uts_i d + 1) (2 ^ 53)) as [L|L].
  - destruct (f64_of_N_exact (uts_i d + 1)) as (A' & B' & _); [lia|].
    pose proof (rp_ge _ _ R _ L) as G'. rewrite SFleb_correct, A' in G'; auto using valid_f64_of_N.
    rewrite (proj2 (N.leb_gt _ _)) in G' by (unfold uts_num, uts_i in *; nia).
    destruct (Rle_bool_spec (IZR (Z.of_N (uts_i d + 1))) (SF2R radix2 (op_n po))); [discriminate|].
    replace (Z.of_N (uts_i d) + 1)%Z with (Z.of_N (uts_i d + 1)) by lia. assumption.
  - pose proof (rp_eq _ _ R (uts_i d) I53) as G'. rewrite SFeqb_correct, A in G'; auto using valid_f64_of_N.
    rewrite (proj2 (N.eqb_eq _ _)) in G' by nia.
    destruct (Req_bool_spec (SF2R radix2 (op_n po)) (IZR (Z.of_N (uts_i d)))) as [Q|]; [|discriminate].
    rewrite Q. apply IZR_lt. lia.
Qed.

Lemma select_from_ops w pr x po : to_operands w x = Ok po -> select w pr x = select w pr (InOps po).
Proof. intro T. unfold select. rewrite T. reflexivity. Qed.

Lemma C97_same_lemma how id t pr w s i e s' d : create how id t = Ok pr -> only_n_and_i t id = true ->
  exponent_text s i true e -> (e < 65536 \/ N.of_nat (List.length i) <= 65000) ->
  numeral s' d -> small d -> exponent_value i true e = exact_value (uts_num d) (List.length (d_frac d)) ->
  select w pr (InStr s) = select w pr (InStr s').
Proof.
  intros C O X B Nu S V. destruct (C87_value_lemma s i true e X) as (n & k & E & K & N0).
  assert (NE : nearest64 (exponent_value i true e) n) by (apply N0; now right). clear N0.
  assert (Pr := numeral_proper s' d Nu). pose proof S as [S1 S2].
  destruct (numeral_represents s' d Nu S) as (po & E' & R).
  assert (Dp := den_pos d).
  assert (FD : uts_f d < uts_den d) by (rewrite <- (num_mod d Pr); apply N.mod_lt; lia).
  assert (I : uts_i d * uts_den d + uts_f d = uts_num d) by (unfold uts_num, uts_i; lia).
  destruct (numeral_operands s' d Nu) as (po' & E2 & On & _); [unfold uts_i in I; nia|unfold uts_i in I; nia|nia|].
  assert (po' = po) as -> by congruence.
  assert (Y : n = op_n po).
  { rewrite V, exact_value_real in NE. apply nearest64_dec in NE. rewrite On, <- NE. f_equal. unfold uts_v. now rewrite nat_N_Z. }
  assert (Q : k = op_i po).
  { rewrite (rp_i _ _ R). destruct NE as [(A1 & A2 & A3 & A4 & A5)|[A1 A2]].
    - destruct K as [[K _]|[_ K]]; [rewrite K in A2; discriminate|]. rewrite Y in *.
      rewrite (floor_represents po d R Pr S A5 A2) in K. nia.
    - exfalso. pose proof (rp_le _ _ R (2 ^ 53 - 1)) as L. rewrite <- Y, A2 in L.
      assert (L2 : false = (uts_num d <=? (2 ^ 53 - 1) * uts_den d)) by (rewrite <- L by reflexivity; vm_compute; reflexivity).
      symmetry in L2. apply N.leb_gt in L2. nia. }
  rewrite (select_from_ops w pr (InStr s) _ E), (select_from_ops w pr (InStr s') _ E').
  apply (C94_same how id t pr w); [exact C|]. intros o J. unfold only_n_and_i in O. rewrite forallb_forall in O. specialize (O o J).
  destruct o; try discriminate; cbn [same op_n op_i]; assumption.
Qed.

(** the others *)
Definition with_exponent : list (string * string * N * string) :=
  [("10e-1", "10", 1, "1.0"); ("15e-1", "15", 1, "1.5"); ("5e-1", "5", 1, "0.5"); ("20e-1", "20", 1, "2.0"); ("30e-1", "30", 1, "3.0");
   ("11e-1", "11", 1, "1.1"); ("50e-1", "50", 1, "5.0"); ("25e-1", "25", 1, "2.5"); ("1e-1", "1", 1, "0.1"); ("60e-1", "60", 1, "6.0");
   ("0e-1", "0", 1, "0.0"); ("35e-1", "35", 1, "3.5"); ("110e-1", "110", 1, "11.0"); ("75e-1", "75", 1, "7.5")]%string.
Definition tells (pr : plural_rules) (x : string * string * N * string) : bool :=
  let '(a, _, _, b) := x in
  match select W64 pr (InStr (bs a)), select W64 pr (InStr (bs b)) with Ok c, Ok c' => negb (cat_eqb c c') | _, _ => false end.
Definition all_tell t : bool :=
  forallb (fun e => only_n_and_i t (fst e) || existsb (tells (mkPR (fst e) (snd e))) with_exponent) (prs t).
Lemma all_tell_true t : all_tell t = true. Proof. destruct t; vm_compute; reflexivity. Qed.
Lemma with_exponent_ok a i e b : In (a, i, e, b) with_exponent ->
  exponent_text (bs a) (bs i) true e /\ exists d, numeral (bs b) d /\ small d /\
    exponent_value (bs i) true e = exact_value (uts_num d) (List.length (d_frac d)).
Proof.
  intro J. assert (D : forall s, forallb is_digit s = true -> digits s) by (intro s; apply digits_forallb).
  repeat (destruct J as [J|J]; [injection J as <- <- <- <-|]); [..|destruct J];
  (split; [|eexists (decimal_with 1 _); split; [apply read_numeral_sound; vm_compute; reflexivity|split; [split; vm_compute; easy|]]]);
  try (eexists [], 101, [45], (bs "1"); split; [reflexivity|]; split; [now left|]; split; [now apply D|]; split; [discriminate|];
       split; [now left|]; split; [reflexivity|]; split; [now apply D|]; split; [discriminate|reflexivity]).
  all: rewrite exact_value_real; reflexivity.
Qed.
Lemma C97_differ_lemma how id t pr w : create how id t = Ok pr -> only_n_and_i t id = false ->
  exists s i e s' d, exponent_text s i true e /\ numeral s' d /\ small d /\
    exponent_value i true e = exact_value (uts_num d) (List.length (d_frac d)) /\
    select w pr (InStr s) <> select w pr (InStr s').
Proof.
  intros C O. pose proof (all_tell_true t) as T. unfold all_tell in T. rewrite forallb_forall in T.
  destruct (C22_lemma how id t pr C) as [I _]. specialize (T _ I). cbn [fst snd] in T. rewrite O in T. cbn [orb] in T.
  apply existsb_exists in T as ([[[a i] e] b] & J & T). destruct (with_exponent_ok a i e b J) as (X & d & Nu & S & V).
  exists (bs a), (bs i), e, (bs b), d. do 4 (split; [assumption|]). unfold tells in T. unfold select, to_operands in *. cbn [pr_function] in T.
  destruct (operands_from_str (bs a)) as [po| |]; [|discriminate T..]. destruct (operands_from_str (bs b)) as [po'| |].
  - destruct (eval_body (pr_function pr) po) as [c| |]; [|discriminate T..].
    destruct (eval_body (pr_function pr) po') as [c'| |]; [|discriminate T..].
    intro Q. injection Q as <-. now destruct c.
  - destruct (eval_body (pr_function pr) po); discriminate T.
  - destruct (eval_body (pr_function pr) po); discriminate T.
Qed.

(** ** C98 *)
Lemma C98_string_lemma w pr s :
  to_operands w (InString s) = to_operands w (InStr s) /\ select w pr (InString s) = select w pr (InStr s).
Proof. split; reflexivity. Qed.
Lemma C98_signed_lemma w pr x : x < match w with W32 => 2 ^ 31 | W64 => 2 ^ 63 end ->
  to_operands w (InSigned (Z.of_N x)) = to_operands w (InUnsigned x) /\
  select w pr (InSigned (Z.of_N x)) = select w pr (InUnsigned x).
Proof.
  intro X. assert (E : to_operands w (InSigned (Z.of_N x)) = to_operands w (InUnsigned x)).
  { cbn [to_operands]. unfold operands_from_signed. assert (Q : wrap_signed (isize_bits w) (Z.of_N x) = Z.of_N x).
    { apply wrap_small; destruct w; cbn [isize_bits]; [change (2 ^ (32 - 1))%Z with 2147483648%Z|change (2 ^ (64 - 1))%Z with 9223372036854775808%Z|..];
        change (2 ^ 31) with 2147483648 in X; change (2 ^ 63) with 9223372036854775808 in X; lia. }
    rewrite Q. cbv zeta. destruct (Z.eqb_spec (Z.of_N x) (- 2 ^ (isize_bits w - 1))) as [K|_].
    - exfalso. assert (0 < 2 ^ (isize_bits w - 1))%Z by (destruct w; reflexivity). lia.
    - unfold operands_from_unsigned. rewrite Z.abs_eq, N2Z.id by lia. reflexivity. }
  split; [exact E|]. unfold select. now rewrite E.
Qed.
Lemma C98_spelling_lemma w pr x i : x <= 2 ^ 53 -> digits i -> i <> [] -> dval i = x ->
  select w pr (InUnsigned x) = select w pr (InStr i) /\ select w pr (InUnsigned x) = select w pr (InString i) /\
  select w pr (InUnsigned x) = select w pr (InString (45 :: i)).
Proof.
  intros X D N V. pose proof (C15_unsigned x i X D N V) as E. subst x.
  assert (E' : operands_from_str (45 :: i) = operands_from_str i).
  { pose proof (from_str_int [45] i (or_intror eq_refl) D N) as A. pose proof (from_str_int [] i (or_introl eq_refl) D N) as B.
    cbn [app] in A, B. now rewrite A, B. }
  unfold select, to_operands, operands_from_String. rewrite E', E. auto.
Qed.
