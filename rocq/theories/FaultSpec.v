(** * What a failed run of the generator reports: the first fault of its input

    Faults are stated of the texts given to the program: rule names and texts,
    locale keys, versions, and data that is given twice or not at all.  The
    generator looks at the inputs in order, in each at the version, the cardinal
    data and the ordinal data, there at all keys first and then at the locales in
    increasing order of identifiers. *)
From Verif Require Import Base Ast CldrParser LangId LangOrder GenRs Json JsonSpec LangSpec Grammar FileSpec.
Open Scope N_scope.

Section Width.
Context {ptr : ptr_width}.

Definition first_fault {A} (fault : A -> string -> Prop) (l : list A) (why : string) : Prop :=
  exists l1 x l2, l = l1 ++ x :: l2 /\ (forall y w, In y l1 -> ~ fault y w) /\ fault x why.

(** a rule: its name lacks a third part; its text does not start with a condition;
    or a "within" of it has no range and it is not the rule of OTHER *)
Inductive rule_fault : bytes * bytes -> string -> Prop :=
| rf_name name text : (forall part, ~ third_part name part) -> rule_fault (name, text) "index out of bounds"
| rf_text name text part : third_part name part -> ~ no_condition text -> no_beginning text ->
    rule_fault (name, text) "Parsing of a condition succeeded"
| rf_within name text part c co t rest : third_part name part -> names part c -> c <> OTHER ->
    longest_condition text co t rest -> ~ generable co -> rule_fault (name, text) "index out of bounds".

(** a locale key other than "root" that names no identifier; its text is part of the message *)
Definition key_fault (kv : bytes * bmap bytes) (why : string) : Prop :=
  fst kv <> bs "root" /\ (forall id, ~ names_id (fst kv) id) /\ why = ("Parsing " ++ text_of (fst kv) ++ " failed")%string.

(** the data of one type *)
Definition is_locale (d : rule_map) (key : bytes) (id : langid) (rules : bmap bytes) : Prop :=
  In (key, rules) d /\ key <> bs "root" /\ names_id key id.
Inductive data_fault (d : rule_map) (why : string) : Prop :=
| df_key : first_fault key_fault d why -> data_fault d why
| df_rule key id rules : (forall kv w, In kv d -> ~ key_fault kv w) ->
    is_locale d key id rules -> first_fault rule_fault rules why ->
    (forall key' id' rules' w, is_locale d key' id' rules' -> id_less id' id -> ~ first_fault rule_fault rules' w) ->
    data_fault d why.

(** one resource, after those of [before] *)
Definition part_fault (t : pr_type) (before : list supplemental) (r : supplemental) (why : string) : Prop :=
  exists d, data_of t r = Some d /\
    (data_fault d why \/
     ((forall w, ~ data_fault d w) /\ (exists r0, In r0 before /\ data_of t r0 <> None) /\
      why = "Cannot provide two inputs with the same data!"%string)).
Definition input_fault (before : list supplemental) (r : supplemental) (why : string) : Prop :=
  ((exists r0, In r0 before /\ version_of r0 <> version_of r) /\ why = "All input resources must use the same CLDR version!"%string) \/
  ((forall r0, In r0 before -> version_of r0 = version_of r) /\
   (part_fault CARDINAL before r why \/ ((forall w, ~ part_fault CARDINAL before r w) /\ part_fault ORDINAL before r why))).
Definition no_faults (rs : list supplemental) : Prop :=
  forall before r after w, rs = before ++ r :: after -> ~ input_fault before r w.

(** all inputs; the message of [unwrap] is followed by a description of the error *)
Definition unwrap_message : string := "called `Result::unwrap()` on an `Err` value".
Definition reported (jsons : list bytes) (why : string) : Prop :=
  (exists js j rest rs, jsons = js ++ j :: rest /\ inputs_are js rs /\ no_faults rs /\
     (((forall r, ~ resource_text j r) /\ why = unwrap_message) \/ exists r, resource_text j r /\ input_fault rs r why)) \/
  (exists rs, inputs_are jsons rs /\ no_faults rs /\
     (((forall r t, In r rs -> data_of t r = None) /\ why = "None of the input files provided core data!"%string) \/
      ((exists r t, In r rs /\ data_of t r <> None) /\ (exists r, In r rs /\ forall z, ~ version_number (version_of r) z) /\
       why = unwrap_message))).

(** no two keys of the same data name the same identifier *)
Definition one_key_each (r : supplemental) : Prop :=
  forall t d key key' id rules rules', data_of t r = Some d -> is_locale d key id rules -> is_locale d key' id rules' ->
    rules = rules'.
End Width.
