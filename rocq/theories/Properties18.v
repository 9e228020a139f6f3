(** * Properties C97 and C98: negative exponents, locale by locale; the type a number is passed in

    [exponent_text] and [exponent_value] are of ExpSpec.v, [only_n_and_i] of LookSpec.v. *)
From Coq Require Import Reals Lra Lia Floats.SpecFloat.
From Flocq Require Import Core.
From Verif Require Import Base F64 SpecR Operands Ast LangId GenRs PluralRules Tables Spec ApiProps InputSpec Conformance DigitFacts OperandsProps ExpSpec LookSpec ExpLocale.
Open Scope N_scope.

(** C97: which locales give "15e-1" the category of "1.5" *)
Theorem C97_harmless how id t pr w s i e s' d : create how id t = Ok pr -> only_n_and_i t id = true ->
  exponent_text s i true e -> (e < 65536 \/ N.of_nat (List.length i) <= 65000) ->
  numeral s' d -> small d -> exponent_value i true e = exact_value (uts_num d) (List.length (d_frac d)) ->
  select w pr (InStr s) = select w pr (InStr s').
Proof. exact (C97_same_lemma how id t pr w s i e s' d). Qed.
Print Assumptions C97_harmless.
Theorem C97_harmful how id t pr w : create how id t = Ok pr -> only_n_and_i t id = false ->
  exists s i e s' d, exponent_text s i true e /\ numeral s' d /\ small d /\
    exponent_value i true e = exact_value (uts_num d) (List.length (d_frac d)) /\
    select w pr (InStr s) <> select w pr (InStr s').
Proof. exact (C97_differ_lemma how id t pr w). Qed.
Print Assumptions C97_harmful.
Example C97_case : exists fr en, create Halving (lang "fr") CARDINAL = Ok fr /\ create Halving (lang "en") CARDINAL = Ok en /\
  only_n_and_i CARDINAL (lang "fr") = true /\ only_n_and_i CARDINAL (lang "en") = false /\ only_n_and_i ORDINAL (lang "en") = true /\
  exponent_text (bs "-1950E-03") (bs "1950") true 3 /\ numeral (bs "1.95") (mkDecimal 1 [9; 5]) /\ small (mkDecimal 1 [9; 5]) /\
  exponent_value (bs "1950") true 3 = exact_value (uts_num (mkDecimal 1 [9; 5])) 2 /\
  select W64 fr (InStr (bs "-1950E-03")) = Ok ONE /\ select W64 fr (InStr (bs "1.95")) = Ok ONE /\
  select W64 en (InStr (bs "-1950E-03")) = Ok ONE /\ select W64 en (InStr (bs "1.95")) = Ok OTHER.
Proof.
  assert (D : forall s, forallb is_digit s = true -> digits s) by (intro s; apply digits_forallb).
  eexists. eexists. do 5 (split; [vm_compute; reflexivity|]). split.
  { exists [45], 69, [45], (bs "03"). split; [reflexivity|]. split; [now right|]. split; [now apply D|]. split; [discriminate|].
    split; [now right|]. split; [reflexivity|]. split; [now apply D|]. split; [discriminate|reflexivity]. }
  split. { exists [], (bs "1"), (bs "95"). split; [now left|]. split; [now apply D|]. split; [discriminate|]. split; [now apply D|]. split; reflexivity. }
  split; [split; vm_compute; easy|]. split.
  { unfold exponent_value, exact_value. change (dval (bs "1950")) with 1950. change (uts_num (mkDecimal 1 [9; 5])) with 195.
    change (bpow radix10 (- Z.of_N 3)%Z) with (/ IZR 1000)%R. change (10 ^ Z.of_nat 2)%Z with 100%Z. cbn [Z.of_N]. lra. }
  repeat (split; [vm_compute; reflexivity|]). vm_compute. reflexivity.
Qed.

(** C98 *)
Theorem C98_string w pr s :
  to_operands w (InString s) = to_operands w (InStr s) /\ select w pr (InString s) = select w pr (InStr s).
Proof. exact (C98_string_lemma w pr s). Qed.
Print Assumptions C98_string.
(** signed and unsigned: 2^31 or 2^63 is the end of [isize] *)
Theorem C98_signed w pr x : x < match w with W32 => 2 ^ 31 | W64 => 2 ^ 63 end ->
  to_operands w (InSigned (Z.of_N x)) = to_operands w (InUnsigned x) /\
  select w pr (InSigned (Z.of_N x)) = select w pr (InUnsigned x).
Proof. exact (C98_signed_lemma w pr x). Qed.
Print Assumptions C98_signed.
(** an integer and any decimal spelling of it *)
Theorem C98_spelling w pr x i : x <= 2 ^ 53 -> digits i -> i <> [] -> dval i = x ->
  select w pr (InUnsigned x) = select w pr (InStr i) /\ select w pr (InUnsigned x) = select w pr (InString i) /\
  select w pr (InUnsigned x) = select w pr (InString (45 :: i)).
Proof. exact (C98_spelling_lemma w pr x i). Qed.
Print Assumptions C98_spelling.
(** operands computed first *)
Theorem C98_operands w pr x po : converted w x = Ok po -> select w pr x = select w pr (InOps po).
Proof. exact (select_from_ops w pr x po). Qed.
Print Assumptions C98_operands.
Example C98_case : exists pr, create Halving (lang "en") CARDINAL = Ok pr /\ select W32 pr (InString (bs "-001")) = Ok ONE /\
  select W32 pr (InSigned 1) = Ok ONE /\ select W64 pr (InString (bs "1.0")) = Ok OTHER /\ dval (bs "001") = 1 /\
  2147483647 < 2 ^ 31 /\ to_operands W32 (InSigned 2147483648) <> to_operands W32 (InUnsigned 2147483648).
Proof. eexists. do 6 (split; [vm_compute; reflexivity|]). vm_compute. discriminate. Qed.
