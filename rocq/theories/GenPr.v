(** * make_pluralrules/src/parser/gen_pr.rs *)
From Verif Require Import Base Ast Tokens.
Open Scope N_scope.

(** gen_pr.rs:25-37 [convert_rangl] (with 12-22 [convert_literal],
    [convert_range]): the values and the ranges, each in order *)
Definition convert_rangl (l : range_list) : list token * list (token * token) :=
  (flat_map (fun x => match x with RValue v => [lit_u64 v] | RRange _ => [] end) l,
   flat_map (fun x => match x with
                      | RRange r => [(lit_u64 (lower_val r), lit_u64 (upper_val r))]
                      | RValue _ => []
                      end) l).

(** gen_pr.rs:40-47 [get_operator_symbol] *)
Definition get_operator_symbol (op : operator) : token :=
  match op with
  | OpIn | OpIs | OpEQ => P "=="
  | OpNotIn | OpIsNot | OpNotEQ => P "!="
  | OpWithin => P "<="
  | OpNotWithin => P ">"
  end.

(** gen_pr.rs:58-66 *)
Definition operand_ident (o : operand) : token :=
  match o with
  | ON => I "n" | OI => I "i" | OV => I "v" | OT => I "t" | OW => I "w" | OF => I "f"
  end.

Definition is_n (o : operand) : bool := match o with ON => true | _ => false end.

(** [quote!(#r.0)]: three tokens (gen_pr.rs:93, 118) *)
Definition dot_zero (t : token) : list token := [t; P "."; TLit (bs "0")].
(** [quote!(po.#l)], [quote!(po.#l % #m)] *)
Definition po_field (l : token) : list token := [I "po"; P "."; l].
Definition po_field_mod (l m : token) : list token := [I "po"; P "."; l; P "%"; m].

(** gen_pr.rs:50-186 [create_relation]; line 87 indexes the ranges and panics
    when there are none *)
Definition create_relation (rel : relation) : res (list token) :=
  let left := rel_expr rel in
  let op := rel_op rel in
  let o_ast := ex_operand left in
  let l := operand_ident o_ast in                                   (* 58-66 *)
  let o := get_operator_symbol op in                                (* 67 *)
  let '(values, ranges) := convert_rangl (rel_list rel) in          (* 68 *)
  let '(mod_check, m) := match ex_modulus left with                 (* 71-75 *)
                         | Some v => (true, lit_u64 v)
                         | None => (false, lit_u64 0)
                         end in
  let? relations :=
    match op with
    | OpWithin | OpNotWithin =>                                     (* 86-110 *)
        let? r0 := unwrap "index out of bounds" (nth_error ranges 0) in   (* 87-88 *)
        let '(rfront, rback) := r0 in
        let '(rf, rb, whole) :=
          if is_n o_ast then
            if negb mod_check then (dot_zero rfront, dot_zero rback, po_field l)  (* 93 *)
            else ([rfront], [rback], po_field_mod (I "i") m)                      (* 95 *)
          else
            ([rfront], [rback],
             if negb mod_check then po_field l else po_field_mod (I "i") m) in    (* 98-106 *)
        Ok [rf ++ [o] ++ whole ++ [P "&&"] ++ whole ++ [o] ++ rb]                  (* 109 *)
    | _ =>                                                          (* 112-172 *)
        let vs :=
          List.map (fun r =>
            let '(symbol, rval) :=
              if is_n o_ast then
                if negb mod_check then (po_field l, dot_zero r)                    (* 118 *)
                else (po_field_mod (I "i") m, [r])                                 (* 120 *)
              else ((if negb mod_check then po_field l else po_field_mod l m), [r]) in
            symbol ++ [o] ++ rval) values in                                      (* 133 *)
        let rs :=
          List.map (fun '(rfront, rback) =>
            let '(symbol, perim) :=
              if is_n o_ast then
                if negb mod_check then
                  (po_field (I "i"), [P "&&"] ++ po_field (I "f") ++ [P "=="; TLit (bs "0")])  (* 144 *)
                else (po_field (I "i"), [])                                       (* 146 *)
              else ((if negb mod_check then po_field l else po_field_mod l m), []) in
            let body := [Par [rfront; P "..="; rback]; P "."; I "contains";
                         Par [P "&"; Par symbol]] in
            match op with
            | OpIn | OpIs | OpEQ => body ++ perim                                 (* 161 *)
            | _ => P "!" :: body ++ perim                                         (* 164 *)
            end) ranges in
        Ok (vs ++ rs)
    end in
  Ok (match op with                                                  (* 175-185 *)
      | OpIn | OpIs | OpEQ =>
          if Nat.ltb 1 (List.length relations) then [Par (sep_by [P "||"] relations)]
          else sep_by [P "||"] relations
      | OpNotIn | OpNotEQ | OpIsNot => sep_by [P "&&"] relations
      | OpWithin | OpNotWithin => sep_by [P "||"] relations
      end).

(** gen_pr.rs:189-199 [create_and_condition] *)
Definition create_and_condition (a : and_condition) : res (list token) :=
  let? v := map_res create_relation a in
  Ok [Par (sep_by [P "&&"] v)].

(** gen_pr.rs:202-212 [create_condition], 215-218 [gen_pr] *)
Definition create_condition (c : condition) : res (list token) :=
  let? v := map_res create_and_condition c in
  Ok (sep_by [P "||"] v).
Definition gen_pr (c : condition) : res (list token) := create_condition c.
