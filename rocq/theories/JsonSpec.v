(** * JSON texts (RFC 8259), independently of the parser in Json.v

    [jtext j s]: the text [s] is a JSON text for the value [j].  Strings are read
    as sequences of units (bytes and UTF-16 code units of escapes) and then
    decoded; [None] is a string with a lone surrogate. *)
From Verif Require Import Base Json.
Open Scope N_scope.

Definition ws (w : bytes) : Prop := Forall (fun c => In c [32; 9; 10; 13]) w.

(** ** Strings *)
Inductive junit := UByte (b : N) | UCode (n : N).
Inductive hexdigit : N -> N -> Prop :=
| hx_digit k : k < 10 -> hexdigit (48 + k) k
| hx_lower k : 10 <= k < 16 -> hexdigit (87 + k) k
| hx_upper k : 10 <= k < 16 -> hexdigit (55 + k) k.
Inductive utext : junit -> bytes -> Prop :=
| ut_plain b : 32 <= b -> b <> 34 -> b <> 92 -> utext (UByte b) [b]
| ut_esc e b : In (e, b) [(34, 34); (92, 92); (47, 47); (98, 8); (102, 12); (110, 10); (114, 13); (116, 9)] ->
    utext (UByte b) [92; e]
| ut_code a b c d w x y z : hexdigit a w -> hexdigit b x -> hexdigit c y -> hexdigit d z ->
    utext (UCode (4096 * w + 256 * x + 16 * y + z)) [92; 117; a; b; c; d].
Inductive utexts : list junit -> bytes -> Prop :=
| us_nil : utexts [] []
| us_cons u t us ts : utext u t -> utexts us ts -> utexts (u :: us) (t ++ ts).

(** UTF-8, read from the bytes *)
Inductive utf8 : N -> bytes -> Prop :=
| u1 n : n < 128 -> utf8 n [n]
| u2 a b : a < 32 -> b < 64 -> 128 <= 64 * a + b -> utf8 (64 * a + b) [192 + a; 128 + b]
| u3 a b c : a < 16 -> b < 64 -> c < 64 -> 2048 <= 4096 * a + 64 * b + c ->
    utf8 (4096 * a + 64 * b + c) [224 + a; 128 + b; 128 + c]
| u4 a b c d : a < 8 -> b < 64 -> c < 64 -> d < 64 -> 65536 <= 262144 * a + 4096 * b + 64 * c + d ->
    utf8 (262144 * a + 4096 * b + 64 * c + d) [240 + a; 128 + b; 128 + c; 128 + d].
Definition high (n : N) : Prop := 55296 <= n < 56320.
Definition low (n : N) : Prop := 56320 <= n < 57344.
Definition starts_low (us : list junit) : Prop := exists m r, us = UCode m :: r /\ low m.
(** the text of a sequence of units, and sequences that have none *)
Inductive decodes : list junit -> option bytes -> Prop :=
| de_nil : decodes [] (Some [])
| de_byte b us o : decodes us o -> decodes (UByte b :: us) (option_map (cons b) o)
| de_bmp n t us o : ~ high n -> ~ low n -> utf8 n t -> decodes us o -> decodes (UCode n :: us) (option_map (app t) o)
| de_pair n m t us o : high n -> low m -> utf8 (65536 + 1024 * (n - 55296) + (m - 56320)) t -> decodes us o ->
    decodes (UCode n :: UCode m :: us) (option_map (app t) o)
| de_lone_high n us : high n -> ~ starts_low us -> decodes (UCode n :: us) None
| de_lone_low n us : low n -> decodes (UCode n :: us) None.
Inductive jstring : option bytes -> bytes -> Prop :=
| js us o ts : utexts us ts -> decodes us o -> jstring o (34 :: ts ++ [34]).

(** ** Numbers *)
Definition digits1 (s : bytes) : Prop := s <> [] /\ Forall (fun c => 48 <= c <= 57) s.
Inductive jint : bytes -> Prop :=
| ji_zero : jint [48]
| ji_pos c r : 49 <= c <= 57 -> Forall (fun c => 48 <= c <= 57) r -> jint (c :: r).
Inductive jfrac : bytes -> Prop :=
| jf_none : jfrac []
| jf_some r : digits1 r -> jfrac (46 :: r).
Inductive jexp : bytes -> Prop :=
| jx_none : jexp []
| jx_some e sign r : e = 101 \/ e = 69 -> sign = [] \/ sign = [43] \/ sign = [45] -> digits1 r -> jexp (e :: sign ++ r).
Inductive jnumber : bytes -> Prop :=
| jn sign i f x : sign = [] \/ sign = [45] -> jint i -> jfrac f -> jexp x -> jnumber (sign ++ i ++ f ++ x).

(** ** Values *)
Inductive jval : json -> bytes -> Prop :=
| jv_null : jval JNull (bs "null")
| jv_true : jval (JBool true) (bs "true")
| jv_false : jval (JBool false) (bs "false")
| jv_num t : jnumber t -> jval JNum t
| jv_str o t : jstring o t -> jval (JStr o) t
| jv_arr0 w : ws w -> jval (JArr []) (91 :: w ++ [93])
| jv_arr l t : jelems l t -> jval (JArr l) (91 :: t ++ [93])
| jv_obj0 w : ws w -> jval (JObj []) (123 :: w ++ [125])
| jv_obj l t : jmembers l t -> jval (JObj l) (123 :: t ++ [125])
with jelems : list json -> bytes -> Prop :=
| je_one v w1 t w2 : ws w1 -> jval v t -> ws w2 -> jelems [v] (w1 ++ t ++ w2)
| je_more v l w1 t w2 r : ws w1 -> jval v t -> ws w2 -> jelems l r -> jelems (v :: l) (w1 ++ t ++ w2 ++ 44 :: r)
with jmembers : list (option bytes * json) -> bytes -> Prop :=
| jm_one m t : jmember m t -> jmembers [m] t
| jm_more m t l r : jmember m t -> jmembers l r -> jmembers (m :: l) (t ++ 44 :: r)
with jmember : option bytes * json -> bytes -> Prop :=
| jm k v w1 tk w2 w3 t w4 : ws w1 -> jstring k tk -> ws w2 -> ws w3 -> jval v t -> ws w4 ->
    jmember (k, v) (w1 ++ tk ++ w2 ++ 58 :: w3 ++ t ++ w4).
Definition jtext (j : json) (s : bytes) : Prop := exists w1 t w2, ws w1 /\ jval j t /\ ws w2 /\ s = w1 ++ t ++ w2.

(** ** What a value says as a resource (resource.rs:8-30)

    A required field must occur once, an optional one at most once and may be
    null; other fields are ignored.  Of equal keys of a map the last counts.  A
    struct may also be written as the array of its fields. *)
Definition stext (j : json) (s : bytes) : Prop := j = JStr (Some s).
Definition keys_are_text (l : list (option bytes * json)) : Prop := Forall (fun kv => fst kv <> None) l.
Definition occurs_not (name : bytes) (l : list (option bytes * json)) : Prop := ~ In (Some name) (List.map fst l).
Definition field_once (name : bytes) (l : list (option bytes * json)) (j : json) : Prop :=
  exists a b, l = a ++ (Some name, j) :: b /\ occurs_not name a /\ occurs_not name b.
Definition nullable {A} (P : json -> A -> Prop) (j : json) (o : option A) : Prop :=
  (j = JNull /\ o = None) \/ (j <> JNull /\ exists x, P j x /\ o = Some x).
Definition required {A} (P : json -> A -> Prop) (name : bytes) (l : list (option bytes * json)) (x : A) : Prop :=
  exists j, field_once name l j /\ P j x.
Definition optionally {A} (P : json -> A -> Prop) (name : bytes) (l : list (option bytes * json)) (o : option A) : Prop :=
  (occurs_not name l /\ o = None) \/ exists j, field_once name l j /\ nullable P j o.

Inductive before : bytes -> bytes -> Prop :=
| bf_end c b : before [] (c :: b)
| bf_less x y a b : x < y -> before (x :: a) (y :: b)
| bf_same x a b : before a b -> before (x :: a) (x :: b).
Fixpoint keys_increase {V} (m : list (bytes * V)) : Prop :=
  match m with
  | (a, _) :: (((b, _) :: _) as r) => before a b /\ keys_increase r
  | _ => True
  end.
Definition last_value {V} (kvs : list (bytes * V)) (k : bytes) (v : V) : Prop :=
  exists a b, kvs = a ++ (k, v) :: b /\ ~ In k (List.map fst b).
Definition is_map {V} (P : json -> V -> Prop) (j : json) (m : list (bytes * V)) : Prop :=
  exists l kvs, j = JObj l /\ Forall2 (fun kj kv => fst kj = Some (fst kv) /\ P (snd kj) (snd kv)) l kvs /\
    keys_increase m /\ forall k v, In (k, v) m <-> last_value kvs k v.

Definition is_version (j : json) (v : version) : Prop :=
  (exists l, j = JObj l /\ keys_are_text l /\ optionally stext (bs "_number") l (ve_number v) /\
     required stext (bs "_unicodeVersion") l (ve_unicode_version v) /\ required stext (bs "_cldrVersion") l (ve_cldr_version v)) \/
  (exists a b c, j = JArr [a; b; c] /\ nullable stext a (ve_number v) /\ stext b (ve_unicode_version v) /\ stext c (ve_cldr_version v)).
Definition is_rules : json -> rule_map -> Prop := is_map (is_map stext).
Definition is_supplemental (j : json) (s : supplemental) : Prop :=
  (exists l, j = JObj l /\ keys_are_text l /\ required is_version (bs "version") l (su_version s) /\
     optionally is_rules (bs "plurals-type-cardinal") l (su_cardinal s) /\
     optionally is_rules (bs "plurals-type-ordinal") l (su_ordinal s)) \/
  (exists a b c, j = JArr [a; b; c] /\ is_version a (su_version s) /\ nullable is_rules b (su_cardinal s) /\ nullable is_rules c (su_ordinal s)).
Definition is_resource (j : json) (s : supplemental) : Prop :=
  (exists l, j = JObj l /\ keys_are_text l /\ required is_supplemental (bs "supplemental") l s) \/
  (exists a, j = JArr [a] /\ is_supplemental a s).
Definition resource_text (s : bytes) (r : supplemental) : Prop := exists j, jtext j s /\ is_resource j r.
