(** * IEEE-754 floats: [f64::from_str], casts and [Display]

    Floats are the standard library's [spec_float] (prec/emax given
    explicitly), so all functions here compute and use no axioms.  Their
    relation to real numbers is proved with Flocq in [F64Facts.v]. *)
From Coq Require Import Floats.SpecFloat.
From Verif Require Import Base.
Open Scope N_scope.

Definition f64 := spec_float.   (* prec 53, emax 1024 *)

(** Correctly rounded (nearest, ties to even) conversion of the decimal
    [m * 10^e]: one exact division of integers, rounded once.  This is the
    documented contract of Rust's [f64::from_str]/[f32::from_str] (operands.rs:83),
    whose internal algorithm (Eisel-Lemire with a big-decimal fallback) is not
    modelled. *)
Definition dec_to_float (prec emax : Z) (neg : bool) (m : N) (e : Z) : spec_float :=
  match m with
  | N0 => S754_zero neg
  | Npos p =>
      let num := (Zpos p * 10 ^ (Z.max e 0))%Z in
      let den := (10 ^ (Z.max (- e) 0))%Z in
      let '(q, ez, l) := SFdiv_core_binary prec emax num 0 den 0 in
      binary_round_aux prec emax neg q ez l
  end.

(** Value of a digit string, most significant digit first. *)
Definition digits_value (s : bytes) : N := fold_left (fun a c => 10 * a + digit_val c) s 0.

(** Exponent part after [e]/[E] (core::num::dec2flt::parse, [parse_scientific]):
    the accumulator stops growing once it reaches 0x10000. *)
Definition exp_acc (s : bytes) : N :=
  fold_left (fun a c => if a <? 65536 then 10 * a + digit_val c else a) s 0.
Definition parse_scientific (s : bytes) : option Z :=
  let '(neg, r) := match s with
                   | c :: r => if c =? 45 then (true, r) else if c =? 43 then (false, r) else (false, s)
                   | [] => (false, [])
                   end in
  match r with
  | [] => None
  | _ => if forallb is_digit r then
           let x := Z.of_N (exp_acc r) in Some (if neg : bool then (- x)%Z else x)
         else None
  end.

(** [parse_number]: digits, optional point and digits, optional exponent; at
    least one digit; whole input consumed.  Result: mantissa and decimal
    exponent. *)
Definition parse_number (s : bytes) : option (N * Z) :=
  let '(ip, r) := span is_digit s in
  let '(fp, r2) := match r with
                   | c :: r' => if c =? 46 then span is_digit r' else ([], r)
                   | [] => ([], [])
                   end in
  match ip ++ fp with
  | [] => None
  | ds =>
      let m := digits_value ds in
      let e0 := (- Z.of_nat (List.length fp))%Z in
      match r2 with
      | [] => Some (m, e0)
      | c :: r3 =>
          if (c =? 101) || (c =? 69) then
            match parse_scientific r3 with
            | Some ex => Some (m, (e0 + ex)%Z)
            | None => None
            end
          else None
      end
  end.

(** [parse_inf_nan]: case-insensitive. *)
Definition parse_inf_nan (neg : bool) (s : bytes) : option spec_float :=
  let l := List.map to_lower s in
  if bytes_eqb l (bs "nan") then Some S754_nan
  else if bytes_eqb l (bs "inf") || bytes_eqb l (bs "infinity") then Some (S754_infinity neg)
  else None.

(** [FromStr for f64]/[f32] (core::num::dec2flt::dec2flt). *)
Definition float_from_str (prec emax : Z) (s : bytes) : option spec_float :=
  match s with
  | [] => None
  | c :: r =>
      let neg := c =? 45 in
      let s' := if (c =? 45) || (c =? 43) then r else s in
      match s' with
      | [] => None
      | _ => match parse_number s' with
             | Some (m, e) => Some (dec_to_float prec emax neg m e)
             | None => parse_inf_nan neg s'
             end
      end
  end.
Definition f64_from_str : bytes -> option f64 := float_from_str 53 1024.

(** [x as u64] for a float: saturating, NaN to 0 (operands.rs:106). *)
Definition float_to_u64 (x : spec_float) : N :=
  match x with
  | S754_finite false m e =>
      let t := match e with
               | Zneg p => Npos m / 2 ^ Npos p
               | Z0 => Npos m
               | Zpos p => Npos m * 2 ^ Npos p
               end in
      N.min t u64_max
  | S754_infinity false => u64_max
  | _ => 0
  end.

(** [x as f64] for an unsigned integer: nearest, ties to even
    (operands.rs:130, 153). *)
Definition f64_of_N (n : N) : f64 := dec_to_float 53 1024 false n 0.

(** IEEE equality and order ([==], [<=], [>]) are [SFeqb], [SFleb], [SFltb]. *)

(** ** [Display for f64]/[f32] ([input.to_string()], operands.rs:173)

    Contract of std's [flt2dec::to_shortest_str] with no precision: the shortest
    decimal that rounds back to the value, the closest one if two qualify, ties
    upwards, never in exponent notation, no trailing ".0".  The Grisu/Dragon
    digit generation itself is not modelled; it is replaced by this search:
    scan decimal exponents downwards; at each one test the decimals just below
    and just above the value. *)
Definition sf_eqb (a b : spec_float) : bool :=
  match a, b with
  | S754_zero s, S754_zero s' => Bool.eqb s s'
  | S754_infinity s, S754_infinity s' => Bool.eqb s s'
  | S754_nan, S754_nan => true
  | S754_finite s m e, S754_finite s' m' e' =>
      Bool.eqb s s' && Pos.eqb m m' && Z.eqb e e'
  | _, _ => false
  end.

(** the value [m * 2^e] as a fraction *)
Definition frac_num (m : positive) (e : Z) : N := Npos m * 2 ^ Z.to_N e.
Definition frac_den (e : Z) : N := 2 ^ Z.to_N (- e).

Fixpoint shortest_scan (prec emax : Z) (m : positive) (e : Z) (fuel : nat) (E : Z)
  : option (N * Z) :=
  match fuel with
  | O => None
  | S k =>
      let num := frac_num m e * 10 ^ Z.to_N (- E) in
      let den := frac_den e * 10 ^ Z.to_N E in
      let lo := num / den in
      let hi := lo + 1 in
      let rem := num mod den in
      let x := S754_finite false m e in
      let lo_ok := sf_eqb (dec_to_float prec emax false lo E) x in
      let hi_ok := sf_eqb (dec_to_float prec emax false hi E) x in
      if lo_ok then
        if hi_ok && (den <=? 2 * rem) then Some (hi, E) else Some (lo, E)
      else if hi_ok then Some (hi, E)
      else shortest_scan prec emax m e k (E - 1)%Z
  end.

(** Drop trailing decimal zeros of a positive mantissa. *)
Fixpoint strip_zeros (fuel : nat) (d : N) (E : Z) : N * Z :=
  match fuel with
  | O => (d, E)
  | S k => if (d mod 10 =? 0) && (0 <? d) then strip_zeros k (d / 10) (E + 1)%Z else (d, E)
  end.

(** Largest decimal exponent tried: the value is below [2^(e+prec)], hence below
    every [10^E] with [e + prec <= 3 * E] and [0 <= E]. *)
Definition first_exponent (prec e : Z) : Z := (Z.max (e + prec) 0 / 3 + 1)%Z.

(** The number of exponents scanned reaches below -1000 (the smallest f64 is
    2^-1074). *)
Definition shortest (prec emax : Z) (m : positive) (e : Z) : option (N * Z) :=
  match shortest_scan prec emax m e 1400 (first_exponent prec e) with
  | Some (d, E) => Some (strip_zeros (S (N.to_nat (N.size d))) d E)
  | None => None
  end.

(** [flt2dec::digits_to_dec_str] with [frac_digits = 0]. *)
Definition digits_to_dec_str (ds : bytes) (E : Z) : bytes :=
  let len := Z.of_nat (List.length ds) in
  let ex := (len + E)%Z in
  if (ex <=? 0)%Z then bs "0." ++ repeat 48 (Z.to_nat (- ex)) ++ ds
  else if (ex <? len)%Z then
    firstn (Z.to_nat ex) ds ++ [46] ++ skipn (Z.to_nat ex) ds
  else ds ++ repeat 48 (Z.to_nat E).

Definition float_to_string (prec emax : Z) (x : spec_float) : bytes :=
  match x with
  | S754_nan => bs "NaN"
  | S754_infinity s => (if s : bool then bs "-" else []) ++ bs "inf"
  | S754_zero s => (if s : bool then bs "-" else []) ++ bs "0"
  | S754_finite s m e =>
      (if s : bool then bs "-" else []) ++
      match shortest prec emax m e with
      | Some (d, E) => digits_to_dec_str (dec_of_N d) E
      | None => bs "?"   (* proved unreachable for valid floats (F64Facts.v) *)
      end
  end.
Definition f64_to_string := float_to_string 53 1024.
Definition f32_to_string := float_to_string 24 128.
