(** * make_pluralrules/src/parser/gen_rs.rs and plural_category.rs *)
From Verif Require Import Base LangId Tokens.
Open Scope N_scope.

(** plural_category.rs:5-12; also intl_pluralrules/src/lib.rs:43-50 *)
Inductive category := ZERO | ONE | TWO | FEW | MANY | OTHER.
Definition category_ident (c : category) : token :=
  match c with
  | ZERO => I "ZERO" | ONE => I "ONE" | TWO => I "TWO"
  | FEW => I "FEW" | MANY => I "MANY" | OTHER => I "OTHER"
  end.
Definition ret (c : category) : token := Brace [I "PluralCategory"; P "::"; category_ident c].

(** gen_rs.rs:69-78 [create_return] *)
Definition create_return (cat : category) (exp : list token) : list token :=
  match cat with
  | OTHER => [ret OTHER]
  | _ => I "if" :: exp ++ [ret cat]
  end.

(** gen_rs.rs:80-107 [gen_langid]; variants are dropped (81, 98) *)
Definition raw_call (ty : string) (lit : token) : list token :=
  [I "subtags"; P "::"; I ty; P "::"; I "from_raw_unchecked"; Par [lit]].
Definition gen_langid (id : langid) : list token :=
  let lang := match li_language id with
              | Some l => raw_call "Language" (lit_u64_suffixed (raw_of_subtag l))
              | None => [I "None"]
              end in
  let script := match li_script id with
                | Some s => [I "Some"; Par (raw_call "Script" (lit_u32_suffixed (raw_of_subtag s)))]
                | None => [I "None"]
                end in
  let region := match li_region id with
                | Some s => [I "Some"; Par (raw_call "Region" (lit_u32_suffixed (raw_of_subtag s)))]
                | None => [I "None"]
                end in
  [I "langid"; P "!"; Par (lang ++ [P ","] ++ script ++ [P ","] ++ region)].

(** gen_rs.rs:112-145 [gen_mid] *)
Definition gen_chain (set : list (category * list token)) : list token :=
  match set with
  | [] => [ret OTHER]                                                          (* 134 *)
  | (c, e) :: rest =>
      fold_left (fun tokens '(c, e) => tokens ++ [I "else"] ++ create_return c e)
                rest (create_return c e)                                       (* 124-130 *)
      ++ [I "else"; ret OTHER]                                                 (* 131 *)
  end.
Definition gen_mid (lang : langid) (set : list (category * list token)) : list token :=
  [Par (gen_langid lang ++ [P ","; P "|"; I "po"; P "|"; Brace (gen_chain set)])].

(** gen_rs.rs:53-66 [create_pr_type]; the map keys are only ever the two names
    below, so the panic of line 59 is unreachable and not represented *)
Inductive pr_type := CARDINAL | ORDINAL.
Definition pr_name (t : pr_type) : token :=
  match t with CARDINAL => I "PRS_CARDINAL" | ORDINAL => I "PRS_ORDINAL" end.
Definition create_pr_type (t : pr_type) (streams : list (list token)) : list token :=
  [I "pub"; I "const"; pr_name t; P ":"; P "&";
   Bracket [Par [I "LanguageIdentifier"; P ","; I "PluralRule"]]; P "="; P "&";
   Bracket (sep_by [P ","] streams); P ";"].

(** gen_rs.rs:11-38 *)
Definition attr (body : list token) : list token := [P "#"; P "!"; Bracket body].
Definition clippy_attr (lint : string) : list token :=
  attr [I "cfg_attr"; Par [I "feature"; P "="; TLit (34 :: bs "cargo-clippy" ++ [34]); P ",";
                           I "allow"; Par [I "clippy"; P "::"; I lint]]].
Definition ignore_noncritical_errors : list token :=
  attr [I "allow"; Par [I "unused_variables"; P ","; I "unused_parens"]]
  ++ clippy_attr "float_cmp" ++ clippy_attr "unreadable_literal" ++ clippy_attr "nonminimal_bool".
Definition use_statements : list token :=
  [I "use"; I "super"; P "::"; I "operands"; P "::"; I "PluralOperands"; P ";";
   I "use"; I "super"; P "::"; I "PluralCategory"; P ";";
   I "use"; I "unic_langid"; P "::"; I "LanguageIdentifier"; P ";";
   I "use"; I "unic_langid"; P "::"; I "subtags"; P ";"].
Definition langid_macro : list token :=
  [I "macro_rules"; P "!"; I "langid";
   Brace [Par [P "$"; I "lang"; P ":"; I "expr"; P ","; P "$"; I "script"; P ":"; I "expr"; P ",";
               P "$"; I "region"; P ":"; I "expr"];
          P "=>";
          Brace [Brace [I "unsafe";
            Brace [I "LanguageIdentifier"; P "::"; I "from_raw_parts_unchecked";
                   Par [P "$"; I "lang"; P ","; P "$"; I "script"; P ","; P "$"; I "region"; P ",";
                        I "None"; P ","]]]];
          P ";"]].
Definition plural_function : list token :=
  [I "pub"; I "type"; I "PluralRule"; P "="; I "fn"; Par [P "&"; I "PluralOperands"];
   P "->"; I "PluralCategory"; P ";"].
Definition version_item (v : N) : list token :=
  [I "pub"; I "static"; I "CLDR_VERSION"; P ":"; I "usize"; P "="; lit_u64 v; P ";"].

(** gen_rs.rs:10-50 [gen_fn].  [streams] lists the entries of the map in key
    order ("cardinal" before "ordinal").  Line 40 parses the version as [isize]
    and unwraps, line 41 casts it to [u64]. *)
Definition gen_fn {ptr : ptr_width} (streams : list (pr_type * list (list token))) (vr : bytes) : res (list token) :=
  let? num := unwrap "called `Result::unwrap()` on an `Err` value" (isize_from_str vr) in
  let ver := Z.to_N (num mod 2 ^ 64)%Z in
  Ok (ignore_noncritical_errors ++ use_statements ++ plural_function ++ version_item ver
      ++ langid_macro
      ++ flat_map (fun '(t, s) => create_pr_type t s) streams).
