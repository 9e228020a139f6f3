(** * The nom 5 combinators used by cldr_pluralrules_parser/src/parser.rs:2-10

    nom is an external crate; each combinator follows its nom 5 source for the
    [complete] variants on [&str].  A parser returns the remaining input and a
    value, or a recoverable error ([Err::Error]); [Err::Failure] and
    [Err::Incomplete] are never produced by the combinators used.  [PFuel] is
    the model's own "does not terminate" value: the loops are run on explicit
    fuel, and [ParserFacts.v] proves it never occurs. *)
From Verif Require Import Base.
Open Scope N_scope.

Inductive pres (A : Type) : Type :=
| PO (rest : bytes) (a : A)
| PE
| PFuel.
Arguments PO {A} rest a.
Arguments PE {A}.
Arguments PFuel {A}.

Definition parser (A : Type) := bytes -> pres A.

Definition pbind {A B} (r : pres A) (k : bytes -> A -> pres B) : pres B :=
  match r with PO rest a => k rest a | PE => PE | PFuel => PFuel end.

(** [combinator::map] *)
Definition pmap {A B} (f : A -> B) (p : parser A) : parser B :=
  fun i => pbind (p i) (fun r a => PO r (f a)).

(** [combinator::map_res]: an [Err] of the closure is a parse error *)
Definition pmap_res {A B} (f : A -> option B) (p : parser A) : parser B :=
  fun i => pbind (p i) (fun r a => match f a with Some b => PO r b | None => PE end).

(** [combinator::opt] *)
Definition popt {A} (p : parser A) : parser (option A) :=
  fun i => match p i with PO r a => PO r (Some a) | PE => PO i None | PFuel => PFuel end.

(** [sequence::tuple] of two; longer tuples are nested *)
Definition pseq {A B} (p : parser A) (q : parser B) : parser (A * B) :=
  fun i => pbind (p i) (fun r a => pbind (q r) (fun r' b => PO r' (a, b))).

(** [sequence::preceded] *)
Definition preceded {A B} (p : parser A) (q : parser B) : parser B :=
  fun i => pbind (p i) (fun r _ => q r).

(** [sequence::separated_pair] *)
Definition separated_pair {A B C} (p : parser A) (s : parser B) (q : parser C) : parser (A * C) :=
  fun i => pbind (p i) (fun r a => pbind (s r) (fun r' _ => pbind (q r') (fun r'' c => PO r'' (a, c)))).

(** [branch::alt] of two; longer alternatives are nested *)
Definition palt {A} (p q : parser A) : parser A :=
  fun i => match p i with PE => q i | x => x end.

(** [bytes::complete::tag] *)
Definition tag (t : bytes) : parser bytes :=
  fun i => match strip t i with Some r => PO r t | None => PE end.

(** [character::complete::digit1] *)
Definition digit1 : parser bytes :=
  fun i => match span is_digit i with ([], _) => PE | (d, r) => PO r d end.

(** [character::complete::space0], [space1]: spaces and tabs *)
Definition is_space (c : N) : bool := (c =? 32) || (c =? 9).
Definition space0 : parser bytes :=
  fun i => let '(s, r) := span is_space i in PO r s.
Definition space1 : parser bytes :=
  fun i => match span is_space i with ([], _) => PE | (s, r) => PO r s end.

(** [character::complete::one_of], for a list of ASCII characters *)
Definition one_of (l : bytes) : parser N :=
  fun i => match i with
           | c :: r => if existsb (fun x => x =? c) l then PO r c else PE
           | [] => PE
           end.

(** The loop of [multi::separated_list]/[separated_nonempty_list]: a separator
    or element error ends the list before the separator; an element that
    consumed nothing is an error. [acc] is reversed. *)
Fixpoint sep_loop {A B} (fuel : nat) (sep : parser B) (f : parser A) (i : bytes) (acc : list A)
  : pres (list A) :=
  match fuel with
  | O => PFuel
  | S k =>
      match sep i with
      | PE => PO i (rev acc)
      | PFuel => PFuel
      | PO i1 _ =>
          if bytes_eqb i1 i then PE
          else match f i1 with
               | PE => PO i (rev acc)
               | PFuel => PFuel
               | PO i2 o => if bytes_eqb i2 i then PE else sep_loop k sep f i2 (o :: acc)
               end
      end
  end.

(** [multi::separated_list] *)
Definition separated_list {A B} (sep : parser B) (f : parser A) : parser (list A) :=
  fun i => match f i with
           | PE => PO i []
           | PFuel => PFuel
           | PO i1 o => if bytes_eqb i1 i then PE else sep_loop (S (List.length i)) sep f i1 [o]
           end.

(** [multi::separated_nonempty_list] *)
Definition separated_nonempty_list {A B} (sep : parser B) (f : parser A) : parser (list A) :=
  fun i => match f i with
           | PE => PE
           | PFuel => PFuel
           | PO i1 o => if bytes_eqb i1 i then PE else sep_loop (S (List.length i)) sep f i1 [o]
           end.
