(** * The derived [Serialize] of make_pluralrules/src/parser/resource.rs with
    serde_json::to_string (C111)

    The crate derives [Serialize] and does not use it.  serde_json is an external
    crate; its compact writer is modelled: no white space, struct fields in the order of
    the declaration, [None] as null, a [BTreeMap] in the order of its keys, and the
    escapes of its table. *)
From Coq Require Import Sorted.
From Verif Require Import Base Json JsonSpec JsonDe.
Open Scope N_scope.

(** serde_json ser.rs [ESCAPE], [CharEscape]: short escapes, \u00xx in lower case for the
    other control characters, everything else as it is *)
Definition lower_hex (k : N) : N := if k <? 10 then 48 + k else 87 + k.
Definition ser_char (b : N) : bytes :=
  if b =? 34 then [92; 34]
  else if b =? 92 then [92; 92]
  else if b =? 8 then [92; 98]
  else if b =? 9 then [92; 116]
  else if b =? 10 then [92; 110]
  else if b =? 12 then [92; 102]
  else if b =? 13 then [92; 114]
  else if b <? 32 then [92; 117; 48; 48; lower_hex (b / 16); lower_hex (b mod 16)]
  else [b].
Definition ser_string (s : bytes) : bytes := 34 :: flat_map ser_char s ++ [34].
Definition ser_option {A} (f : A -> bytes) (o : option A) : bytes := match o with Some x => f x | None => bs "null" end.
(** members separated by commas *)
Fixpoint ser_members {V} (f : V -> bytes) (m : list (bytes * V)) : bytes :=
  match m with
  | [] => []
  | [(k, v)] => ser_string k ++ 58 :: f v
  | (k, v) :: r => ser_string k ++ 58 :: f v ++ 44 :: ser_members f r
  end.
Definition ser_map {V} (f : V -> bytes) (m : bmap V) : bytes := 123 :: ser_members f m ++ [125].
Definition ser_rule_map : rule_map -> bytes := ser_map (ser_map ser_string).
(** a struct: names and texts of its fields *)
Definition ser_struct (l : list (string * bytes)) : bytes := ser_map (fun t => t) (List.map (fun p => (bs (fst p), snd p)) l).
(** resource.rs:13-21 *)
Definition ser_version (v : version) : bytes :=
  ser_struct [("_number"%string, ser_option ser_string (ve_number v)); ("_unicodeVersion"%string, ser_string (ve_unicode_version v));
              ("_cldrVersion"%string, ser_string (ve_cldr_version v))].
(** resource.rs:23-30 *)
Definition ser_supplemental (s : supplemental) : bytes :=
  ser_struct [("version"%string, ser_version (su_version s)); ("plurals-type-cardinal"%string, ser_option ser_rule_map (su_cardinal s));
              ("plurals-type-ordinal"%string, ser_option ser_rule_map (su_ordinal s))].
(** resource.rs:8-11 *)
Definition ser_resource (r : supplemental) : bytes := ser_struct [("supplemental"%string, ser_supplemental r)].
