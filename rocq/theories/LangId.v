(** * Language identifiers

    [unic_langid::LanguageIdentifier] (external crate, versions 0.8/0.9) as used
    in intl_pluralrules/src/lib.rs:101-184 and make_pluralrules/src/lib.rs:66-81.
    A subtag is its ASCII text.  The crate stores subtags as [TinyStr]s, i.e. as
    integers holding the bytes little-endian, and derives its order from the
    big-endian reading, which is the lexicographic order of the texts. *)
From Verif Require Import Base.
Open Scope N_scope.

Record langid := mkLang {
  li_language : option bytes;          (* None is "und" *)
  li_script : option bytes;
  li_region : option bytes;
  li_variants : option (list bytes)
}.

(** ** Order: derived [Ord] on the four fields *)
Fixpoint bytes_compare (a b : bytes) : comparison :=
  match a, b with
  | [], [] => Eq
  | [], _ => Lt
  | _, [] => Gt
  | x :: a', y :: b' => match N.compare x y with Eq => bytes_compare a' b' | c => c end
  end.
Fixpoint list_compare {A} (cmp : A -> A -> comparison) (a b : list A) : comparison :=
  match a, b with
  | [], [] => Eq
  | [], _ => Lt
  | _, [] => Gt
  | x :: a', y :: b' => match cmp x y with Eq => list_compare cmp a' b' | c => c end
  end.
Definition option_compare {A} (cmp : A -> A -> comparison) (a b : option A) : comparison :=
  match a, b with
  | None, None => Eq
  | None, Some _ => Lt
  | Some _, None => Gt
  | Some x, Some y => cmp x y
  end.
Definition then_compare (a b : comparison) : comparison := match a with Eq => b | _ => a end.
Definition langid_compare (a b : langid) : comparison :=
  then_compare (option_compare bytes_compare (li_language a) (li_language b))
  (then_compare (option_compare bytes_compare (li_script a) (li_script b))
  (then_compare (option_compare bytes_compare (li_region a) (li_region b))
                (option_compare (list_compare bytes_compare) (li_variants a) (li_variants b)))).

(** ** Raw subtags: [into_raw_parts] / [from_raw_unchecked]
    (gen_rs.rs:81-96, rules.rs:18 ff.): bytes little-endian in an integer *)
Definition raw_of_subtag (s : bytes) : N := fold_right (fun c a => c + 256 * a) 0 s.
Fixpoint subtag_of_raw_fuel (fuel : nat) (n : N) : bytes :=
  match fuel with
  | O => []
  | S k => if n =? 0 then [] else (n mod 256) :: subtag_of_raw_fuel k (n / 256)
  end.
Definition subtag_of_raw (n : N) : bytes := subtag_of_raw_fuel 8 n.

(** ** Parsing, [LanguageIdentifier::from_str] (make_pluralrules/src/lib.rs:72-74) *)
Fixpoint split_on (p : N -> bool) (s : bytes) : list bytes :=
  match s with
  | [] => [[]]
  | c :: r =>
      if p c then [] :: split_on p r
      else match split_on p r with
           | h :: t => (c :: h) :: t
           | [] => [[c]]
           end
  end.

Definition all_alpha (s : bytes) := forallb is_alpha s.
Definition all_digit (s : bytes) := forallb is_digit s.
Definition all_alnum (s : bytes) := forallb is_alnum s.
Definition lower := List.map to_lower.
Definition upper := List.map to_upper.
Definition title (s : bytes) : bytes :=
  match s with c :: r => to_upper c :: lower r | [] => [] end.

Definition language_from_bytes (s : bytes) : option (option bytes) :=
  let n := List.length s in
  if (Nat.leb 2 n && Nat.leb n 8 && negb (Nat.eqb n 4) && all_alpha s)%bool then
    let l := lower s in Some (if bytes_eqb l (bs "und") then None else Some l)
  else None.
Definition script_from_bytes (s : bytes) : option bytes :=
  if (Nat.eqb (List.length s) 4 && all_alpha s)%bool then Some (title s) else None.
Definition region_from_bytes (s : bytes) : option bytes :=
  if (Nat.eqb (List.length s) 2 && all_alpha s)%bool then Some (upper s)
  else if (Nat.eqb (List.length s) 3 && all_digit s)%bool then Some s
  else None.
Definition variant_from_bytes (s : bytes) : option bytes :=
  let n := List.length s in
  if (Nat.leb 5 n && Nat.leb n 8 && all_alnum s)%bool then Some (lower s)
  else match s with
       | c :: _ => if (Nat.eqb n 4 && is_digit c && all_alnum s)%bool then Some (lower s) else None
       | [] => None
       end.

Fixpoint insert_bytes (x : bytes) (l : list bytes) : list bytes :=
  match l with
  | [] => [x]
  | y :: r => match bytes_compare x y with
              | Lt => x :: l
              | Eq => l                      (* sort + dedup *)
              | Gt => y :: insert_bytes x r
              end
  end.

(** position: 1 script/region/variant, 2 region/variant, 3 variants only *)
Fixpoint parse_subtags (pos : nat) (sc rg : option bytes) (vs : list bytes) (l : list bytes)
  : option (option bytes * option bytes * list bytes) :=
  match l with
  | [] => Some (sc, rg, vs)
  | s :: r =>
      match (if Nat.eqb pos 1 then script_from_bytes s else None) with
      | Some x => parse_subtags 2 (Some x) rg vs r
      | None =>
          match (if Nat.leb pos 2 then region_from_bytes s else None) with
          | Some x => parse_subtags 3 sc (Some x) vs r
          | None =>
              match variant_from_bytes s with
              | Some x => parse_subtags 3 sc rg (insert_bytes x vs) r
              | None => None
              end
          end
      end
  end.

Definition langid_from_str (s : bytes) : option langid :=
  match split_on (fun c => (c =? 45) || (c =? 95)) s with
  | [] => None
  | l :: rest =>
      match language_from_bytes l with
      | None => None
      | Some lang =>
          match parse_subtags 1 None None [] rest with
          | None => None
          | Some (sc, rg, vs) =>
              Some (mkLang lang sc rg (match vs with [] => None | _ => Some vs end))
          end
      end
  end.
