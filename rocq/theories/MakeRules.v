(** * make_pluralrules/src/lib.rs *)
From Verif Require Import Base Ast CldrParser LangId Tokens GenPr GenRs Json.
Open Scope N_scope.

Section Width.
Context {ptr : ptr_width}.

(** lib.rs:66-78: drop "root", parse the other keys, panic on a bad one *)
Fixpoint parse_keys {V} (rules : bmap V) : res (list (langid * V)) :=
  match rules with
  | [] => Ok []
  | (key, value) :: r =>
      if bytes_eqb key (bs "root") then parse_keys r
      else
        let? id := unwrap ("Parsing " ++ text_of key ++ " failed")%string (langid_from_str key) in
        let? l := parse_keys r in
        Ok ((id, value) :: l)
  end.

(** lib.rs:81 [sort_unstable_by].  The order of entries with equal keys is
    unspecified, so the sorting function is a parameter of the model; this is
    what it is required to satisfy. *)
Definition sorter := forall V : Type, list (langid * V) -> list (langid * V).
Fixpoint sorted_keys {V} (l : list (langid * V)) : Prop :=
  match l with
  | [] => True
  | (a, _) :: r =>
      match r with
      | [] => True
      | (b, _) :: _ => langid_compare a b <> Gt /\ sorted_keys r
      end
  end.
(** one such function, used to compute *)
Fixpoint insert_by_key {V} (x : langid * V) (l : list (langid * V)) : list (langid * V) :=
  match l with
  | [] => [x]
  | y :: r => match langid_compare (fst x) (fst y) with
              | Gt => y :: insert_by_key x r
              | _ => x :: l
              end
  end.
Definition insertion_sort : sorter := fun V l => fold_right insert_by_key [] l.

(** lib.rs:89 [rule_name.split('-').collect::<Vec<_>>()[2]] *)
Definition cat_name_of (rule_name : bytes) : res bytes :=
  unwrap "index out of bounds" (nth_error (split_on (fun c => c =? 45) rule_name) 2).

(** lib.rs:95-107 *)
Definition category_of_name (s : bytes) : category :=
  if bytes_eqb s (bs "zero") then ZERO
  else if bytes_eqb s (bs "one") then ONE
  else if bytes_eqb s (bs "two") then TWO
  else if bytes_eqb s (bs "few") then FEW
  else if bytes_eqb s (bs "many") then MANY
  else OTHER.

(** lib.rs:87-114, one locale *)
Fixpoint gen_lang_rules (r : bmap bytes) : res (list (category * list token)) :=
  match r with
  | [] => Ok []
  | (rule_name, rule_line) :: rest =>
      let? cat_name := cat_name_of rule_name in                            (* 89 *)
      let? representation :=                                               (* 92-93 *)
        match parse_plural_condition rule_line with
        | Ok c => Ok c
        | Err _ => Panic "Parsing of a condition succeeded"
        | Panic w => Panic w
        end in
      match category_of_name cat_name with
      | OTHER => gen_lang_rules rest                                       (* 110 *)
      | cat =>
          let? tokens := gen_pr representation in                          (* 111 *)
          let? l := gen_lang_rules rest in
          Ok ((cat, tokens) :: l)
      end
  end.

(** lib.rs:62-119 [gen_type_rs] *)
Definition gen_type_rs (srt : sorter) (rules : rule_map) : res (list (list token)) :=
  let? l := parse_keys rules in
  map_res (fun '(lang, r) => let? set := gen_lang_rules r in Ok (gen_mid lang set)) (srt _ l).

(** State of the loop of [generate_rs], lib.rs:22-23: the version seen and the
    map [tokens], as its two possible entries *)
Record gen_state := mkGen {
  g_version : option bytes;
  g_cardinal : option (list (list token));
  g_ordinal : option (list (list token)) }.

(** lib.rs:37-43 and 45-51 *)
Definition gen_part (srt : sorter) (cur : option (list (list token))) (data : option rule_map)
  : res (option (list (list token))) :=
  match data with
  | None => Ok cur
  | Some d =>
      let? ts := gen_type_rs srt d in
      match cur with
      | Some _ => Panic "Cannot provide two inputs with the same data!"
      | None => Ok (Some ts)
      end
  end.

(** lib.rs:29-51, the loop body after parsing *)
Definition gen_step (srt : sorter) (st : gen_state) (r : supplemental) : res gen_state :=
  let v := ve_cldr_version (su_version r) in
  let? ver := match g_version st with
              | None => Ok v
              | Some v0 =>
                  if bytes_eqb v0 v then Ok v0
                  else Panic "All input resources must use the same CLDR version!"
              end in
  let? c := gen_part srt (g_cardinal st) (su_cardinal r) in
  let? o := gen_part srt (g_ordinal st) (su_ordinal r) in
  Ok (mkGen (Some ver) c o).

(** lib.rs:25-52, the loop *)
Fixpoint gen_loop (srt : sorter) (st : gen_state) (jsons : list bytes) : res gen_state :=
  match jsons with
  | [] => Ok st
  | j :: rest =>
      let? r := unwrap "called `Result::unwrap()` on an `Err` value"
                  (parse_plurals_resource_from_string j) in
      let? st' := gen_step srt st r in
      gen_loop srt st' rest
  end.

(** lib.rs:54-59 *)
Definition gen_finish (st : gen_state) : res (list token) :=
  let streams :=
    match g_cardinal st with Some s => [(CARDINAL, s)] | None => [] end
    ++ match g_ordinal st with Some s => [(ORDINAL, s)] | None => [] end in
  match g_version st, streams with
  | Some v, _ :: _ => gen_fn streams v
  | _, _ => Panic "None of the input files provided core data!"
  end.

(** lib.rs:21-60 [generate_rs]: the token stream and its text *)
Definition generate_tokens (srt : sorter) (jsons : list bytes) : res (list token) :=
  let? st := gen_loop srt (mkGen None None None) jsons in gen_finish st.
Definition generate_rs (srt : sorter) (jsons : list bytes) : res bytes :=
  let? ts := generate_tokens srt jsons in Ok (print_tokens ts).
End Width.
