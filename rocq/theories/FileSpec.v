(** * Reading a generated file: what C50-C59 say about the output text

    A small reader of table keys beside the reader of RustExpr.v, which also
    needs every condition to be readable. *)
From Coq Require Import Sorting.Permutation.
From Verif Require Import Base Ast CldrParser LangId LangOrder Tokens GenPr GenRs Json JsonSpec MakeRules RustExpr Spec.
Open Scope N_scope.

Section Width.
Context {ptr : ptr_width}.

Definition table_name (t : pr_type) : bytes :=
  match t with CARDINAL => bs "PRS_CARDINAL" | ORDINAL => bs "PRS_ORDINAL" end.

(** the tokens between the brackets of [pub const NAME: &[..] = &[ .. ];] *)
Fixpoint table_tokens (name : bytes) (ts : list token) : option (list token) :=
  match ts with
  | TIdent n :: ((TPunct c :: TPunct a :: TGroup DBracket _ :: TPunct e :: TPunct a2
                  :: TGroup DBracket tbl :: TPunct sc :: _) as r) =>
      if bytes_eqb n name && bytes_eqb c (bs ":") && bytes_eqb a (bs "&") && bytes_eqb e (bs "=")
         && bytes_eqb a2 (bs "&") && bytes_eqb sc (bs ";")
      then Some tbl else table_tokens name r
  | _ :: r => table_tokens name r
  | [] => None
  end.
(** the key of an entry [(langid!(...), ...)] *)
Definition entry_key (ts : list token) : option langid :=
  match ts with
  | [TGroup DParen (TIdent m :: TPunct b :: TGroup DParen args :: TPunct c :: _)] =>
      if bytes_eqb m (bs "langid") && bytes_eqb b (bs "!") && bytes_eqb c (bs ",") then read_langid args else None
  | _ => None
  end.
Definition table_keys (tbl : list token) : option (list langid) :=
  map_opt entry_key (drop_last_empty (split_toks (bs ",") tbl)).

(** ** Of a text *)
Definition output_version (out : bytes) : option N :=
  match lex out with Some ts => find_version ts | None => None end.
Definition output_keys (t : pr_type) (out : bytes) : option (list langid) :=
  match lex out with
  | Some ts => match table_tokens (table_name t) ts with Some tbl => table_keys tbl | None => None end
  | None => None
  end.
Definition output_has (t : pr_type) (out : bytes) : Prop :=
  match lex out with Some ts => table_tokens (table_name t) ts <> None | None => False end.
Definition output_table (t : pr_type) (out : bytes) : option (list (langid * body)) :=
  match lex out with
  | Some ts => match table_tokens (table_name t) ts with Some tbl => read_table tbl | None => None end
  | None => None
  end.

(** ** Of the inputs *)
Definition inputs_are (jsons : list bytes) (rs : list supplemental) : Prop :=
  Forall2 resource_text jsons rs.
Definition data_of (t : pr_type) (r : supplemental) : option rule_map :=
  match t with CARDINAL => su_cardinal r | ORDINAL => su_ordinal r end.
Definition version_of (r : supplemental) : bytes := ve_cldr_version (su_version r).

(** what [sort_unstable_by] guarantees *)
Fixpoint ids_sorted (l : list langid) : Prop :=
  match l with
  | a :: ((b :: _) as r) => ~ id_less b a /\ ids_sorted r
  | _ => True
  end.
Fixpoint ids_increasing (l : list langid) : Prop :=
  match l with
  | a :: ((b :: _) as r) => id_less a b /\ ids_increasing r
  | _ => True
  end.
Definition sorts (srt : sorter) : Prop :=
  forall V (l : list (langid * V)), Permutation l (srt V l) /\ ids_sorted (List.map fst (srt V l)).

(** the identifier of a key, and the part of it that the table keeps *)
Definition drop_variants (id : langid) : langid := mkLang (li_language id) (li_script id) (li_region id) None.
Definition is_root (key : bytes) : bool := bytes_eqb key (bs "root").
Definition locales (d : rule_map) : list bytes := List.filter (fun k => negb (is_root k)) (List.map fst d).

(** ** The rules of a locale: the category a rule name stands for (its third
    part between hyphens) and the condition its text stands for *)
Definition third_part (name part : bytes) : Prop :=
  exists a b rest, name = a ++ 45 :: b ++ 45 :: part ++ rest /\ ~ In 45 a /\ ~ In 45 b /\ ~ In 45 part /\
    (rest = [] \/ exists r, rest = 45 :: r).
Definition category_word (c : category) : bytes :=
  match c with
  | ZERO => bs "zero" | ONE => bs "one" | TWO => bs "two" | FEW => bs "few" | MANY => bs "many" | OTHER => bs "other"
  end.
Definition names (part : bytes) (c : category) : Prop :=
  (c <> OTHER /\ part = category_word c) \/ (c = OTHER /\ forall k, k <> OTHER -> part <> category_word k).
Definition rule_reads (nt : bytes * bytes) (cc : category * condition) : Prop :=
  exists part, third_part (fst nt) part /\ names part (fst cc) /\ parse_plural_condition (snd nt) = Ok (snd cc).
Definition not_other (cc : category * condition) : bool := match fst cc with OTHER => false | _ => true end.
(** a locale of the input, its identifier and its rules *)
Definition input_locale (d : rule_map) (key : bytes) (id : langid) (cs : list (category * condition)) : Prop :=
  key <> bs "root" /\ langid_from_str key = Some id /\ exists rules, In (key, rules) d /\ Forall2 rule_reads rules cs.

(** ** The version of a resource as an integer *)
Definition isize_end : Z := match ptr with W32 => 2 ^ 31 | W64 => 2 ^ 63 end.
Definition version_number (v : bytes) (z : Z) : Prop :=
  exists sign ds, v = sign ++ ds /\ digits ds /\ ds <> [] /\
    (((sign = [] \/ sign = bs "+") /\ z = Z.of_N (dval ds) /\ (z < isize_end)%Z) \/
     (sign = bs "-" /\ z = (- Z.of_N (dval ds))%Z /\ (- isize_end <= z)%Z)).

(** ** A sorting function that looks at the keys only, as every function that
    sorts by comparing keys does *)
Definition on_value {V W} (f : V -> W) (kv : langid * V) : langid * W := (fst kv, f (snd kv)).
Definition uniform (srt : sorter) : Prop :=
  forall V W (f : V -> W) l, srt W (List.map (on_value f) l) = List.map (on_value f) (srt V l).

(** ** Conditions for which code can be generated *)
Definition is_within_op (o : operator) : bool := match o with OpWithin | OpNotWithin => true | _ => false end.
Definition has_range (r : relation) : bool := existsb (fun i => match i with RRange _ => true | RValue _ => false end) (rel_list r).
Definition generable (c : condition) : Prop :=
  forall a r, In a c -> In r a -> is_within_op (rel_op r) = true -> has_range r = true.
End Width.
