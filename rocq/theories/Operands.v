(** * intl_pluralrules/src/operands.rs *)
From Coq Require Import Floats.SpecFloat.
From Verif Require Import Base F64.
Open Scope N_scope.

(** operands.rs:56-71, struct PluralOperands *)
Record operands := mkOps {
  op_n : f64;   (* operands.rs:60 *)
  op_i : N;     (* u64, operands.rs:62 *)
  op_v : N;     (* usize, operands.rs:64 *)
  op_w : N;     (* usize, operands.rs:66 *)
  op_f : N;     (* u64, operands.rs:68 *)
  op_t : N      (* u64, operands.rs:70 *)
}.

(** operands.rs:76-121, [TryFrom<&str>::try_from] *)
Definition operands_from_str (input : bytes) : res operands :=
  (* 77-81 *)
  let? abs_str := match input with
                  | c :: _ => if c =? 45 then slice_from input 1 else Ok input
                  | [] => Ok input
                  end in
  (* 83 *)
  let? absolute_value := ok_or "Incorrect number passed!" (f64_from_str abs_str) in
  match find_byte 46 abs_str with
  | Some dec_pos =>                                     (* 91 *)
      let? int_str := slice_to abs_str dec_pos in       (* 92 *)
      let? dec_str := slice_from abs_str (S dec_pos) in (* 93 *)
      let? integer_digits :=                            (* 95-96 *)
        ok_or "Could not convert string to integer!" (u64_from_str int_str) in
      let backtrace := trim_end_matches 48 dec_str in   (* 98 *)
      let num_fraction_digits0 := N.of_nat (List.length dec_str) in   (* 100 *)
      let num_fraction_digits := N.of_nat (List.length backtrace) in  (* 101 *)
      let? fraction_digits0 :=                          (* 102-103 *)
        ok_or "Could not convert string to integer!" (u64_from_str dec_str) in
      let fraction_digits :=                            (* 104, unwrap_or(0) *)
        match u64_from_str backtrace with Some x => x | None => 0 end in
      Ok (mkOps absolute_value integer_digits num_fraction_digits0 num_fraction_digits
                fraction_digits0 fraction_digits)       (* 113-120 *)
  | None =>                                             (* 105-111 *)
      Ok (mkOps absolute_value (float_to_u64 absolute_value) 0 0 0 0)
  end.

(** operands.rs:124-143, [impl_integer_type!]: [From<u8..u64, usize>].  A value
    of such a type is the number it denotes. *)
Definition operands_from_unsigned (x : N) : operands := mkOps (f64_of_N x) x 0 0 0 0.

Definition isize_bits (w : ptr_width) : Z := match w with W32 => 32 | W64 => 64 end.

(** Two's complement reinterpretation, Rust [as] between integer types. *)
Definition wrap_signed (bits z : Z) : Z :=
  let m := (z mod 2 ^ bits)%Z in
  if (m <? 2 ^ (bits - 1))%Z then m else (m - 2 ^ bits)%Z.

(** operands.rs:145-166, [impl_signed_integer_type!]: line 151 casts to [isize]
    and takes [checked_abs], lines 152-159 cast back. *)
Definition operands_from_signed (w : ptr_width) (z : Z) : res operands :=
  let x := wrap_signed (isize_bits w) z in
  if (x =? - 2 ^ (isize_bits w - 1))%Z then Err "Number too big"
  else Ok (mkOps (f64_of_N (Z.to_N (Z.abs x))) (Z.to_N (Z.abs x)) 0 0 0 0).

(** operands.rs:168-181, [impl_convert_type!(f32 f64 String)]: [to_string] then
    [try_from(&str)]. *)
Definition operands_from_f64 (x : spec_float) : res operands := operands_from_str (f64_to_string x).
Definition operands_from_f32 (x : spec_float) : res operands := operands_from_str (f32_to_string x).
Definition operands_from_String (s : bytes) : res operands := operands_from_str s.
