(** * Byte strings, outcomes, and the Rust [std] string/integer primitives
    that the crates call.

    Rust's [str] is modelled as the list of its UTF-8 bytes ([list N]).  The
    primitives in this file are library code (Rust [core]/[alloc]); each is
    modelled from its documented behaviour and its call sites in /repo are
    cited. *)
From Coq Require Export NArith ZArith List Bool String Ascii Lia.
From Coq Require Import ZifyBool ZifyN ZifyNat.
Export ListNotations.
Open Scope N_scope.

Definition bytes := list N.

(** Source text of a literal as bytes; only used to write constants. *)
Definition bs (s : string) : bytes := List.map N_of_ascii (list_ascii_of_string s).

(** The outcome of a Rust call: a normal value, [Err(e)] of a [Result], or a
    panic.  (intl_pluralrules/src/operands.rs:76 returns [Result]; panics are
    made explicit wherever slicing, indexing, [unwrap] or [expect] occurs.) *)
Inductive res (A : Type) : Type :=
| Ok (a : A)
| Err (e : string)
| Panic (why : string).
Arguments Ok {A} a.
Arguments Err {A} e%string_scope.
Arguments Panic {A} why%string_scope.

Definition rbind {A B} (x : res A) (f : A -> res B) : res B :=
  match x with Ok a => f a | Err e => Err e | Panic w => Panic w end.
Notation "'let?' x ':=' e 'in' k" := (rbind e (fun x => k))
  (at level 200, x pattern, e at level 100, k at level 200, right associativity).

(** [?] after [map_err(|_| msg)] on an [Option]/[Result] (operands.rs:83, 96, 103) *)
Definition ok_or {A} (msg : string) (o : option A) : res A :=
  match o with Some a => Ok a | None => Err msg end.
Arguments ok_or {A} msg%string_scope o.

(** [.unwrap()] / [.expect(..)] (make_pluralrules/src/lib.rs:27, 93) *)
Definition unwrap {A} (why : string) (o : option A) : res A :=
  match o with Some a => Ok a | None => Panic why end.
Arguments unwrap {A} why%string_scope o.

Definition map_res {A B} (f : A -> res B) : list A -> res (list B) :=
  fix go l := match l with
  | [] => Ok []
  | x :: r => let? y := f x in let? ys := go r in Ok (y :: ys)
  end.

(** ** Bytes *)
Definition bytes_eqb (a b : bytes) : bool :=
  (fix go a b := match a, b with
   | [], [] => true
   | x :: a', y :: b' => if x =? y then go a' b' else false
   | _, _ => false
   end) a b.

(** ASCII digits, [u8::is_ascii_digit] / [char::is_digit(10)] *)
Definition is_digit (c : N) : bool := (48 <=? c) && (c <=? 57).
Definition is_alpha (c : N) : bool :=
  ((65 <=? c) && (c <=? 90)) || ((97 <=? c) && (c <=? 122)).
Definition is_alnum (c : N) : bool := is_digit c || is_alpha c.
Definition to_lower (c : N) : N := if (65 <=? c) && (c <=? 90) then c + 32 else c.
Definition to_upper (c : N) : N := if (97 <=? c) && (c <=? 122) then c - 32 else c.

(** Longest prefix satisfying [p], and the rest. *)
Fixpoint span (p : N -> bool) (s : bytes) : bytes * bytes :=
  match s with
  | c :: r => if p c then let '(a, b) := span p r in (c :: a, b) else ([], s)
  | [] => ([], [])
  end.

(** [str::starts_with(&str)]: [strip p s] is the remainder of [s] after [p]. *)
Fixpoint strip (p s : bytes) : option bytes :=
  match p, s with
  | [], _ => Some s
  | x :: p', y :: s' => if x =? y then strip p' s' else None
  | _ :: _, [] => None
  end.

(** [str::find(char)] for an ASCII char: byte index of the first occurrence
    (operands.rs:91). *)
Fixpoint find_byte (c : N) (s : bytes) : option nat :=
  match s with
  | [] => None
  | x :: r => if x =? c then Some O else option_map S (find_byte c r)
  end.

(** [str::trim_end_matches(char)] for an ASCII char (operands.rs:98). *)
Fixpoint drop_while (p : N -> bool) (s : bytes) : bytes :=
  match s with
  | c :: r => if p c then drop_while p r else s
  | [] => []
  end.
Definition trim_end_matches (c : N) (s : bytes) : bytes :=
  rev (drop_while (fun x => x =? c) (rev s)).

(** [str::is_char_boundary]: end of string, or not a UTF-8 continuation byte. *)
Definition is_char_boundary (s : bytes) (i : nat) : bool :=
  match i with
  | O => true
  | _ => match nth_error s i with
         | Some b => (b <? 128) || (192 <=? b)
         | None => Nat.eqb i (List.length s)
         end
  end.

(** [&s[i..]] and [&s[..i]]: panic off the string or off a char boundary
    (operands.rs:78, 92, 93). *)
Definition slice_from (s : bytes) (i : nat) : res bytes :=
  if is_char_boundary s i then Ok (skipn i s) else Panic "byte index is not a char boundary".
Definition slice_to (s : bytes) (i : nat) : res bytes :=
  if is_char_boundary s i then Ok (firstn i s) else Panic "byte index is not a char boundary".

(** ** Integer parsing *)
Definition u64_max : N := 18446744073709551615.

Definition digit_val (c : N) : N := c - 48.

(** [u64::from_str] ([from_str_radix 10]): optional ['+'], at least one digit,
    [checked_mul]/[checked_add] at every digit (operands.rs:96, 103, 104;
    [usize] in cldr_pluralrules_parser/src/parser.rs:14). *)
Fixpoint checked_digits (max acc : N) (s : bytes) : option N :=
  match s with
  | [] => Some acc
  | c :: r =>
      if is_digit c then
        let m := 10 * acc in
        if m <=? max then
          let a := m + digit_val c in
          if a <=? max then checked_digits max a r else None
        else None
      else None
  end.

Definition unsigned_from_str (max : N) (s : bytes) : option N :=
  match s with
  | [] => None
  | c :: r =>
      let d := if c =? 43 then r else s in
      match d with [] => None | _ => checked_digits max 0 d end
  end.
Definition u64_from_str : bytes -> option N := unsigned_from_str u64_max.

(** Pointer width of the machine: the size of [usize] and [isize].  A class, so
    that it need not be written where it does not matter; where none is in sight
    it is 64 bits (the host that runs make_pluralrules). *)
Inductive ptr_width := W32 | W64.
Existing Class ptr_width.
#[global] Instance host_width : ptr_width := W64.
(** [usize::max_value() + 1] *)
Definition usize_limit {ptr : ptr_width} : N := match ptr with W32 => 2 ^ 32 | W64 => 2 ^ 64 end.
Definition usize_from_str {ptr : ptr_width} : bytes -> option N := unsigned_from_str (usize_limit - 1).

(** [isize::from_str]: optional ['+'] or ['-']
    (make_pluralrules/src/parser/gen_rs.rs:40). *)
Definition isize_limit {ptr : ptr_width} : N := match ptr with W32 => 2147483648 | W64 => 9223372036854775808 end.
Definition isize_from_str {ptr : ptr_width} (s : bytes) : option Z :=
  match s with
  | [] => None
  | c :: r =>
      if c =? 45 then
        match r with
        | [] => None
        | _ => option_map (fun n => (- Z.of_N n)%Z) (checked_digits isize_limit 0 r)
        end
      else option_map Z.of_N (unsigned_from_str (isize_limit - 1) s)
  end.

(** ** Decimal rendering of an unsigned integer ([Display for u64],
    [Literal::u64_unsuffixed], gen_pr.rs:13) *)
Fixpoint dec_aux (fuel : nat) (n : N) (acc : bytes) : bytes :=
  match fuel with
  | O => acc
  | S k => if n <? 10 then (48 + n) :: acc
           else dec_aux k (n / 10) ((48 + n mod 10) :: acc)
  end.
Definition dec_of_N (n : N) : bytes := dec_aux (S (N.to_nat (N.size n))) n [].

(** ** Valid UTF-8 (the type invariant of Rust's [str]) *)
Definition is_cont (b : N) : bool := (128 <=? b) && (b <? 192).
Fixpoint utf8_valid (s : bytes) : bool :=
  match s with
  | [] => true
  | a :: r =>
      if a <? 128 then utf8_valid r
      else match r with
      | b :: r1 =>
          if (194 <=? a) && (a <? 224) then is_cont b && utf8_valid r1
          else match r1 with
          | c :: r2 =>
              if (224 <=? a) && (a <? 240) then
                is_cont b && is_cont c
                && (if a =? 224 then 160 <=? b else true)
                && (if a =? 237 then b <? 160 else true)
                && utf8_valid r2
              else match r2 with
              | d :: r3 =>
                  (240 <=? a) && (a <? 245) && is_cont b && is_cont c && is_cont d
                  && (if a =? 240 then 144 <=? b else true)
                  && (if a =? 244 then b <? 144 else true)
                  && utf8_valid r3
              | [] => false
              end
          | [] => false
          end
      | [] => false
      end
  end.

(** Lines of an embedded text file, joined with newlines. *)
Fixpoint join_lines (l : list bytes) : bytes :=
  match l with
  | [] => []
  | [x] => x
  | x :: r => x ++ 10%N :: join_lines r
  end.
