(** * intl_pluralrules/src/lib.rs *)
From Verif Require Import Base F64 Operands LangId GenRs RustExpr.

(** ** std's [slice::binary_search_by]

    The repository does not pin a compiler, and std has used two loops.  Both
    are modelled; [std_search] selects one.  [cmp] is the comparison of an
    element with the target.  [slice::get_unchecked] is a [Panic] when out of
    bounds (it would be undefined behaviour). *)
Inductive search_result := Found (i : nat) | NotFound (i : nat).
Inductive std_search := Halving | LeftRight.

(** since Rust 1.52:
    [while left < right { mid = left + size / 2; left = mid + 1 if Less;
     right = mid if Greater; return Ok(mid) if Equal; size = right - left }] *)
Fixpoint lr_loop {A} (cmp : A -> comparison) (l : list A) (fuel left right : nat)
  : res search_result :=
  match fuel with
  | O => Panic "out of fuel"
  | S k =>
      if Nat.ltb left right then
        let mid := (left + (right - left) / 2)%nat in
        match nth_error l mid with
        | None => Panic "index out of bounds"
        | Some x =>
            match cmp x with
            | Lt => lr_loop cmp l k (S mid) right
            | Gt => lr_loop cmp l k left mid
            | Eq => Ok (Found mid)
            end
        end
      else Ok (NotFound left)
  end.

(** before 1.52 and since 1.82:
    [while size > 1 { half = size / 2; mid = base + half;
     base = if Greater then base else mid; size -= half }], then one comparison *)
Fixpoint halving_loop {A} (cmp : A -> comparison) (l : list A) (fuel base size : nat)
  : res search_result :=
  match fuel with
  | O => Panic "out of fuel"
  | S k =>
      if Nat.ltb 1 size then
        let half := (size / 2)%nat in
        let mid := (base + half)%nat in
        match nth_error l mid with
        | None => Panic "index out of bounds"
        | Some x =>
            halving_loop cmp l k (match cmp x with Gt => base | _ => mid end) (size - half)
        end
      else
        match nth_error l base with
        | None => Panic "index out of bounds"
        | Some x =>
            match cmp x with
            | Eq => Ok (Found base)
            | Lt => Ok (NotFound (S base))
            | Gt => Ok (NotFound base)
            end
        end
  end.

Definition binary_search {A} (how : std_search) (cmp : A -> comparison) (l : list A)
  : res search_result :=
  let size := List.length l in
  match how with
  | LeftRight => lr_loop cmp l (S size) 0 size
  | Halving => match l with
               | [] => Ok (NotFound 0)
               | _ => halving_loop cmp l (S size) 0 size
               end
  end.

(** ** lib.rs:79-82, struct PluralRules.  A function pointer of type
    [PluralRule] is the body of the closure in the table. *)
Record plural_rules := mkPR { pr_locale : langid; pr_function : body }.
Definition table := list (langid * body).

(** lib.rs:106-113: [binary_search_by_key(&&langid, |(l, _)| l)], then the
    indexing [[idx].1]; lib.rs:115-121 *)
Definition create_in (how : std_search) (prs : table) (id : langid) : res plural_rules :=
  let? r := binary_search how (fun e => langid_compare (fst e) id) prs in
  match r with
  | Found idx =>
      let? e := unwrap "index out of bounds" (nth_error prs idx) in
      Ok (mkPR id (snd e))
  | NotFound _ => Err "unknown locale"
  end.

(** The types that implement [TryInto<PluralOperands>] (operands.rs:74-187 and
    the reflexive conversion); [InUnsigned]/[InSigned] stand for all the integer
    types, whose values are the numbers they denote. *)
Inductive input :=
| InStr (s : bytes)
| InString (s : bytes)
| InUnsigned (x : N)
| InSigned (z : Z)
| InF32 (x : F64.f64)
| InF64 (x : F64.f64)
| InOps (po : operands).
Definition to_operands (w : ptr_width) (x : input) : res operands :=
  match x with
  | InStr s => operands_from_str s
  | InString s => operands_from_String s
  | InUnsigned x => Ok (operands_from_unsigned x)
  | InSigned z => operands_from_signed w z
  | InF32 x => operands_from_f32 x
  | InF64 x => operands_from_f64 x
  | InOps po => Ok po
  end.

(** lib.rs:139-149 [select] *)
Definition select (w : ptr_width) (pr : plural_rules) (number : input) : res category :=
  match to_operands w number with
  | Ok ops => eval_body (pr_function pr) ops
  | Err _ => Err "Argument can not be parsed to operands."
  | Panic why => Panic why
  end.

(** lib.rs:163-169 [get_locales]; lib.rs:182-184 [get_locale] *)
Definition get_locales_in (prs : table) : list langid := List.map fst prs.
Definition get_locale (pr : plural_rules) : langid := pr_locale pr.
