(** * serde_json::from_str and the derived [Deserialize] of
    make_pluralrules/src/parser/resource.rs

    serde_json is an external crate.  Objects keep their members in source
    order with duplicates.  A string whose escapes contain a lone surrogate is
    [None]: serde_json rejects it where the text is wanted and accepts it in
    ignored values.  Numbers are only checked for syntax (no field is one). *)
From Verif Require Import Base LangId.
Open Scope N_scope.

Inductive json :=
| JNull | JBool (b : bool) | JNum
| JStr (s : option bytes)
| JArr (l : list json)
| JObj (l : list (option bytes * json)).

Definition is_jws (c : N) : bool := (c =? 32) || (c =? 10) || (c =? 9) || (c =? 13).
Definition skip_ws (s : bytes) : bytes := drop_while is_jws s.

Definition hex_val (c : N) : option N :=
  if is_digit c then Some (c - 48)
  else if (97 <=? c) && (c <=? 102) then Some (c - 87)
  else if (65 <=? c) && (c <=? 70) then Some (c - 55)
  else None.
Definition hex4 (s : bytes) : option (N * bytes) :=
  match s with
  | a :: b :: c :: d :: r =>
      match hex_val a, hex_val b, hex_val c, hex_val d with
      | Some a, Some b, Some c, Some d => Some (((a * 16 + b) * 16 + c) * 16 + d, r)
      | _, _, _, _ => None
      end
  | _ => None
  end.
Definition utf8_encode (n : N) : bytes :=
  if n <? 128 then [n]
  else if n <? 2048 then [192 + n / 64; 128 + n mod 64]
  else if n <? 65536 then [224 + n / 4096; 128 + (n / 64) mod 64; 128 + n mod 64]
  else [240 + n / 262144; 128 + (n / 4096) mod 64; 128 + (n / 64) mod 64; 128 + n mod 64].

Definition cons_opt (p : bytes) (o : option bytes) : option bytes := option_map (app p) o.

(** string body after the opening quote; [fuel] is any list at least as long
    as the input *)
Fixpoint parse_string (fuel : bytes) (s : bytes) : option (option bytes * bytes) :=
  match fuel with
  | [] => None
  | _ :: k =>
      match s with
      | [] => None
      | c :: r =>
          let put p r := match parse_string k r with
                         | Some (t, r') => Some (cons_opt p t, r')
                         | None => None
                         end in
          let bad r := match parse_string k r with
                       | Some (_, r') => Some (None, r')
                       | None => None
                       end in
          if c =? 34 then Some (Some [], r)
          else if c =? 92 then
            match r with
            | e :: r1 =>
                if (e =? 34) || (e =? 92) || (e =? 47) then put [e] r1
                else if e =? 98 then put [8] r1
                else if e =? 102 then put [12] r1
                else if e =? 110 then put [10] r1
                else if e =? 114 then put [13] r1
                else if e =? 116 then put [9] r1
                else if e =? 117 then
                  match hex4 r1 with
                  | None => None
                  | Some (n, r2) =>
                      if (55296 <=? n) && (n <? 56320) then        (* high surrogate *)
                        match r2 with
                        | 92 :: 117 :: r3 =>
                            match hex4 r3 with
                            | Some (m, r4) =>
                                if (56320 <=? m) && (m <? 57344) then
                                  put (utf8_encode (65536 + (n - 55296) * 1024 + (m - 56320))) r4
                                else bad r2
                            | None => None
                            end
                        | _ => bad r2
                        end
                      else if (56320 <=? n) && (n <? 57344) then bad r2
                      else put (utf8_encode n) r2
                  end
                else None
            | [] => None
            end
          else if c <? 32 then None
          else put [c] r
      end
  end.

(** number syntax: [-] (0 | [1-9][0-9]* ) [. digits] [e [+-] digits] *)
Definition parse_num (s : bytes) : option bytes :=
  let s1 := match s with c :: r => if c =? 45 then r else s | [] => s end in
  let int := match s1 with
             | c :: r =>
                 if c =? 48 then Some r
                 else if is_digit c then Some (drop_while is_digit r) else None
             | [] => None
             end in
  match int with
  | None => None
  | Some s2 =>
      let frac := match s2 with
                  | c :: r =>
                      if c =? 46 then
                        match r with
                        | d :: _ => if is_digit d then Some (drop_while is_digit r) else None
                        | [] => None
                        end
                      else Some s2
                  | [] => Some s2
                  end in
      match frac with
      | None => None
      | Some s3 =>
          match s3 with
          | c :: r =>
              if (c =? 101) || (c =? 69) then
                let r1 := match r with
                          | d :: r' => if (d =? 43) || (d =? 45) then r' else r
                          | [] => r
                          end in
                match r1 with
                | d :: _ => if is_digit d then Some (drop_while is_digit r1) else None
                | [] => None
                end
              else
                (* a digit after a leading zero is an error *)
                if is_digit c then None else Some s3
          | [] => Some s3
          end
      end
  end.

Fixpoint parse_value (fuel : bytes) (s : bytes) : option (json * bytes) :=
  match fuel with
  | [] => None
  | _ :: k =>
      match skip_ws s with
      | [] => None
      | c :: r =>
          if c =? 34 then
            match parse_string k r with Some (t, r') => Some (JStr t, r') | None => None end
          else if c =? 123 then
            match skip_ws r with
            | 125 :: r1 => Some (JObj [], r1)
            | r1 => match parse_members k r1 with
                    | Some (l, r2) => Some (JObj l, r2)
                    | None => None
                    end
            end
          else if c =? 91 then
            match skip_ws r with
            | 93 :: r1 => Some (JArr [], r1)
            | r1 => match parse_value k r1 with
                    | Some (v, r2) =>
                        match parse_elems k r2 with
                        | Some (l, r3) => Some (JArr (v :: l), r3)
                        | None => None
                        end
                    | None => None
                    end
            end
          else match strip (bs "null") (c :: r) with
          | Some r1 => Some (JNull, r1)
          | None =>
          match strip (bs "true") (c :: r) with
          | Some r1 => Some (JBool true, r1)
          | None =>
          match strip (bs "false") (c :: r) with
          | Some r1 => Some (JBool false, r1)
          | None => match parse_num (c :: r) with Some r1 => Some (JNum, r1) | None => None end
          end end end
      end
  end
with parse_members (fuel : bytes) (s : bytes) : option (list (option bytes * json) * bytes) :=
  match fuel with
  | [] => None
  | _ :: k =>
      match skip_ws s with
      | 34 :: r =>
          match parse_string k r with
          | Some (key, r1) =>
              match skip_ws r1 with
              | 58 :: r2 =>
                  match parse_value k r2 with
                  | Some (v, r3) =>
                      match skip_ws r3 with
                      | 44 :: r4 =>
                          match parse_members k r4 with
                          | Some (l, r5) => Some ((key, v) :: l, r5)
                          | None => None
                          end
                      | 125 :: r4 => Some ([(key, v)], r4)
                      | _ => None
                      end
                  | None => None
                  end
              | _ => None
              end
          | None => None
          end
      | _ => None
      end
  end
with parse_elems (fuel : bytes) (s : bytes) : option (list json * bytes) :=
  match fuel with
  | [] => None
  | _ :: k =>
      match skip_ws s with
      | 44 :: r =>
          match parse_value k r with
          | Some (v, r1) =>
              match parse_elems k r1 with
              | Some (l, r2) => Some (v :: l, r2)
              | None => None
              end
          | None => None
          end
      | 93 :: r => Some ([], r)
      | _ => None
      end
  end.

(** The input itself serves as fuel: every nested call has consumed a byte. *)
Definition json_from_str (s : bytes) : option json :=
  match parse_value (0 :: s) s with
  | Some (v, r) => match skip_ws r with [] => Some v | _ => None end
  | None => None
  end.

(** ** [BTreeMap<String, V>]: association list sorted by key bytes, a later
    value replacing an earlier one *)
Definition bmap (V : Type) := list (bytes * V).
Fixpoint bmap_insert {V} (k : bytes) (v : V) (m : bmap V) : bmap V :=
  match m with
  | [] => [(k, v)]
  | (k', v') :: r =>
      match bytes_compare k k' with
      | Lt => (k, v) :: m
      | Eq => (k', v) :: r
      | Gt => (k', v') :: bmap_insert k v r
      end
  end.

(** ** Derived [Deserialize], resource.rs:8-30 *)
Definition de_string (j : json) : option bytes := match j with JStr s => s | _ => None end.
Definition de_option {A} (f : json -> option A) (j : json) : option (option A) :=
  match j with JNull => Some None | _ => option_map Some (f j) end.
Fixpoint de_map_members {V} (f : json -> option V) (acc : bmap V)
    (l : list (option bytes * json)) : option (bmap V) :=
  match l with
  | [] => Some acc
  | (Some k, v) :: r =>
      match f v with Some x => de_map_members f (bmap_insert k x acc) r | None => None end
  | (None, _) :: _ => None
  end.
Definition de_map {V} (f : json -> option V) (j : json) : option (bmap V) :=
  match j with JObj l => de_map_members f [] l | _ => None end.

Definition rule_map := bmap (bmap bytes).
Definition de_rule_map : json -> option rule_map := de_map (de_map de_string).

(** All values given for a field of a struct; keys must be valid text. *)
Definition keys_ok (l : list (option bytes * json)) : bool :=
  forallb (fun '(k, _) => match k with Some _ => true | None => false end) l.
Definition field_values (name : bytes) (l : list (option bytes * json)) : list json :=
  flat_map (fun '(k, v) => match k with
                           | Some k => if bytes_eqb k name then [v] else []
                           | None => []
                           end) l.
(** a required field: exactly once; an [Option] field: at most once *)
Definition req {A} (f : json -> option A) (vs : list json) : option A :=
  match vs with [v] => f v | _ => None end.
Definition optional {A} (f : json -> option A) (vs : list json) : option (option A) :=
  match vs with [] => Some None | [v] => de_option f v | _ => None end.

(** resource.rs:13-21 [Version] (serde also accepts a struct as an array) *)
Record version := mkVersion {
  ve_number : option bytes; ve_unicode_version : bytes; ve_cldr_version : bytes }.
Definition de_version (j : json) : option version :=
  match j with
  | JObj l =>
      if keys_ok l then
        match optional de_string (field_values (bs "_number") l),
              req de_string (field_values (bs "_unicodeVersion") l),
              req de_string (field_values (bs "_cldrVersion") l) with
        | Some a, Some b, Some c => Some (mkVersion a b c)
        | _, _, _ => None
        end
      else None
  | JArr [a; b; c] =>
      match de_option de_string a, de_string b, de_string c with
      | Some a, Some b, Some c => Some (mkVersion a b c)
      | _, _, _ => None
      end
  | _ => None
  end.

(** resource.rs:23-30 [Supplemental] *)
Record supplemental := mkSupplemental {
  su_version : version; su_cardinal : option rule_map; su_ordinal : option rule_map }.
Definition de_supplemental (j : json) : option supplemental :=
  match j with
  | JObj l =>
      if keys_ok l then
        match req de_version (field_values (bs "version") l),
              optional de_rule_map (field_values (bs "plurals-type-cardinal") l),
              optional de_rule_map (field_values (bs "plurals-type-ordinal") l) with
        | Some a, Some b, Some c => Some (mkSupplemental a b c)
        | _, _, _ => None
        end
      else None
  | JArr [a; b; c] =>
      match de_version a, de_option de_rule_map b, de_option de_rule_map c with
      | Some a, Some b, Some c => Some (mkSupplemental a b c)
      | _, _, _ => None
      end
  | _ => None
  end.

(** resource.rs:8-11 [Resource], represented by its only field *)
Definition de_resource (j : json) : option supplemental :=
  match j with
  | JObj l =>
      if keys_ok l then req de_supplemental (field_values (bs "supplemental") l) else None
  | JArr [a] => de_supplemental a
  | _ => None
  end.

(** resource.rs:33-36 [parse_plurals_resource_from_string] *)
Definition parse_plurals_resource_from_string (body : bytes) : option supplemental :=
  match json_from_str body with Some j => de_resource j | None => None end.
