(** * The shipped CLDR data, intl_pluralrules/cldr_data/*.json

    The meaning of the data as a specification: for each locale key except
    "root", the parsed identifier and the condition of each category.  The JSON
    reader and the rule parser are the models in [Json] and [CldrParser], whose
    own properties are proved separately. *)
From Verif Require Import Base LangId GenRs Json CldrParser Ast Spec.
From Verif Require Import TextCardinals37 TextOrdinals37.
Open Scope N_scope.

(** the JSON object of a rule type in a resource *)
Definition rule_map_of (t : pr_type) (text : bytes) : option rule_map :=
  match parse_plurals_resource_from_string text with
  | Some s => match t with CARDINAL => su_cardinal s | ORDINAL => su_ordinal s end
  | None => None
  end.
Definition cldr_json (t : pr_type) : bytes :=
  match t with CARDINAL => cardinals37_json | ORDINAL => ordinals37_json end.

(** the six rule names of the data *)
Definition rule_names : list (bytes * category) :=
  [(bs "pluralRule-count-zero", ZERO); (bs "pluralRule-count-one", ONE);
   (bs "pluralRule-count-two", TWO); (bs "pluralRule-count-few", FEW);
   (bs "pluralRule-count-many", MANY); (bs "pluralRule-count-other", OTHER)].
Definition named_category (name : bytes) : option category :=
  option_map snd (List.find (fun '(n, _) => bytes_eqb n name) rule_names).

Definition cldr_rule (r : bytes * bytes) : option (category * condition) :=
  match named_category (fst r), parse_plural_rule (snd r) with
  | Some c, Ok ru => Some (c, ru_condition ru)
  | _, _ => None
  end.
Fixpoint opt_all {A B} (f : A -> option B) (l : list A) : option (list B) :=
  match l with
  | [] => Some []
  | x :: r => match f x, opt_all f r with Some y, Some ys => Some (y :: ys) | _, _ => None end
  end.
Definition cldr_locale (e : bytes * bmap bytes) : option (langid * list (category * condition)) :=
  match langid_from_str (fst e), opt_all cldr_rule (snd e) with
  | Some l, Some rs => Some (l, rs)
  | _, _ => None
  end.
Definition not_root (e : bytes * bmap bytes) : bool := negb (bytes_eqb (fst e) (bs "root")).
Definition cldr_of_text (t : pr_type) (text : bytes)
  : option (list (langid * list (category * condition))) :=
  match rule_map_of t text with
  | Some m => opt_all cldr_locale (List.filter not_root m)
  | None => None
  end.

(** the computed data *)
Definition cldr_cardinal :=
  Eval vm_compute in match cldr_of_text CARDINAL cardinals37_json with Some l => l | None => [] end.
Definition cldr_ordinal :=
  Eval vm_compute in match cldr_of_text ORDINAL ordinals37_json with Some l => l | None => [] end.
Definition cldr (t : pr_type) : list (langid * list (category * condition)) :=
  match t with CARDINAL => cldr_cardinal | ORDINAL => cldr_ordinal end.
Lemma cldr_correct t : cldr_of_text t (cldr_json t) = Some (cldr t).
Proof. destruct t; vm_compute; reflexivity. Qed.

(** The category CLDR assigns to a decimal: the one whose condition holds, OTHER
    if none does.  A relation, because nothing in the format forces the
    conditions of a locale to exclude each other (see property C33). *)
Definition cldr_select (rules : list (category * condition)) (d : decimal) (c : category) : Prop :=
  (c <> OTHER /\ exists cond, In (c, cond) rules /\ uts_condition cond d = true) \/
  (c = OTHER /\ forall c' cond, In (c', cond) rules -> c' <> OTHER -> uts_condition cond d = false).
