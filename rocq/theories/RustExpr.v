(** * The Rust code of rules.rs: abstract syntax, reader, evaluator

    The fragment of Rust used by intl_pluralrules/src/rules.rs and produced by
    gen_pr.rs/gen_rs.rs.  The reader follows Rust's precedence: method call,
    then unary [!], [%], comparison, [&&], [||]. *)
From Coq Require Import Floats.SpecFloat.
From Verif Require Import Base F64 Operands Ast LangId Tokens GenRs.
Open Scope N_scope.

(** ** Abstract syntax *)
Inductive num := NField (o : operand) | NMod (o : operand) (m : N).   (* po.x, po.x % m *)
Inductive lit := LInt (n : N) | LFloat (n : N).                       (* n, n.0 *)
Inductive cmpop := CEq | CNe | CLe | CGt.
Inductive bexpr :=
| BCmpNL (x : num) (op : cmpop) (l : lit)
| BCmpLN (l : lit) (op : cmpop) (x : num)
| BContains (lo hi : N) (x : num)                    (* (lo..=hi).contains(&(x)) *)
| BNot (b : bexpr)
| BAnd (a b : bexpr)
| BOr (a b : bexpr).

(** The body of one closure: the [if]/[else if] chain, then [else]. *)
Record body := mkBody { b_arms : list (bexpr * category); b_else : category }.

(** ** Evaluation.  [Panic] stands for code that does not type-check ([n] used
    as an integer or the reverse) or a remainder by zero. *)
Definition int_field (o : operand) (po : operands) : option N :=
  match o with
  | ON => None
  | OI => Some (op_i po) | OV => Some (op_v po) | OW => Some (op_w po)
  | OF => Some (op_f po) | OT => Some (op_t po)
  end.
Definition eval_int (x : num) (po : operands) : res N :=
  match x with
  | NField o => unwrap "mismatched types" (int_field o po)
  | NMod o m =>
      let? v := unwrap "mismatched types" (int_field o po) in
      if m =? 0 then Panic "remainder with a divisor of zero" else Ok (v mod m)
  end.
Definition is_float (x : num) : bool := match x with NField ON => true | _ => false end.

Definition cmp_int (op : cmpop) (a b : N) : bool :=
  match op with CEq => a =? b | CNe => negb (a =? b) | CLe => a <=? b | CGt => b <? a end.
Definition cmp_float (op : cmpop) (a b : f64) : bool :=
  match op with
  | CEq => SFeqb a b | CNe => negb (SFeqb a b) | CLe => SFleb a b | CGt => SFltb b a
  end.
(** a literal must fit its inferred type [u64]/[usize] *)
Definition lit_int (l : lit) : res N :=
  match l with
  | LInt n => if n <=? u64_max then Ok n else Panic "literal out of range"
  | LFloat _ => Panic "mismatched types"
  end.
Definition lit_float (l : lit) : res f64 :=
  match l with LFloat n => Ok (f64_of_N n) | LInt _ => Panic "mismatched types" end.

Fixpoint eval (e : bexpr) (po : operands) : res bool :=
  match e with
  | BCmpNL x op l =>
      if is_float x then let? k := lit_float l in Ok (cmp_float op (op_n po) k)
      else let? k := lit_int l in let? v := eval_int x po in Ok (cmp_int op v k)
  | BCmpLN l op x =>
      if is_float x then let? k := lit_float l in Ok (cmp_float op k (op_n po))
      else let? k := lit_int l in let? v := eval_int x po in Ok (cmp_int op k v)
  | BContains lo hi x =>
      let? a := lit_int (LInt lo) in
      let? b := lit_int (LInt hi) in
      let? v := eval_int x po in Ok ((a <=? v) && (v <=? b))
  | BNot b => let? v := eval b po in Ok (negb v)
  | BAnd a b => let? v := eval a po in if v : bool then eval b po else Ok false
  | BOr a b => let? v := eval a po in if v : bool then Ok true else eval b po
  end.

Fixpoint eval_arms (arms : list (bexpr * category)) (els : category) (po : operands)
  : res category :=
  match arms with
  | [] => Ok els
  | (e, c) :: r => let? v := eval e po in if v : bool then Ok c else eval_arms r els po
  end.
Definition eval_body (b : body) (po : operands) : res category :=
  eval_arms (b_arms b) (b_else b) po.

(** ** What the compiler checks: types, literal ranges, no remainder by zero *)
Definition num_ok (x : num) : bool :=
  match x with
  | NField _ => true
  | NMod ON _ => false
  | NMod _ m => negb (m =? 0) && (m <=? u64_max)
  end.
Definition lit_ok (x : num) (l : lit) : bool :=
  match l with LInt n => negb (is_float x) && (n <=? u64_max) | LFloat _ => is_float x end.
Fixpoint compiles (e : bexpr) : bool :=
  match e with
  | BCmpNL x _ l | BCmpLN l _ x => num_ok x && lit_ok x l
  | BContains lo hi x => num_ok x && negb (is_float x) && (lo <=? u64_max) && (hi <=? u64_max)
  | BNot b => compiles b
  | BAnd a b | BOr a b => compiles a && compiles b
  end.
Definition body_compiles (b : body) : bool := forallb (fun '(e, _) => compiles e) (b_arms b).

(** ** Reader *)

(** split a token list at the top-level occurrences of an operator; always
    returns at least one piece *)
Definition is_punct (s : bytes) (t : token) : bool :=
  match t with TPunct p => bytes_eqb p s | _ => false end.
Fixpoint split_toks (s : bytes) (ts : list token) : list (list token) :=
  match ts with
  | [] => [[]]
  | t :: r =>
      if is_punct s t then [] :: split_toks s r
      else match split_toks s r with
           | h :: l => (t :: h) :: l
           | [] => [[t]]
           end
  end.

Definition read_nat (s : bytes) : option N :=
  match s with [] => None | _ => if forallb is_digit s then Some (digits_value s) else None end.

Definition operand_of_ident (s : bytes) : option operand :=
  match s with
  | [c] => if c =? 110 then Some ON else if c =? 105 then Some OI else if c =? 118 then Some OV
           else if c =? 119 then Some OW else if c =? 102 then Some OF
           else if c =? 116 then Some OT else None
  | _ => None
  end.

(** [po.x] or [po.x % m] *)
Definition read_num (ts : list token) : option num :=
  match ts with
  | TIdent p :: TPunct d :: TIdent f :: r =>
      if bytes_eqb p (bs "po") && bytes_eqb d (bs ".") then
        match operand_of_ident f, r with
        | Some o, [] => Some (NField o)
        | Some o, [TPunct pc; TLit m] =>
            if bytes_eqb pc (bs "%") then option_map (NMod o) (read_nat m) else None
        | _, _ => None
        end
      else None
  | _ => None
  end.

(** [k], or [k.0] either as one token or, before rustfmt has glued them, as the
    three tokens [k . 0] that [quote!(#r.0)] produces *)
Definition read_lit (ts : list token) : option lit :=
  match ts with
  | [TLit k] =>
      match read_nat k with
      | Some n => Some (LInt n)
      | None =>
          match span is_digit k with
          | ((_ :: _) as ip, r) => if bytes_eqb r (bs ".0") then Some (LFloat (digits_value ip)) else None
          | _ => None
          end
      end
  | [TLit k; TPunct d; TLit z] =>
      if bytes_eqb d (bs ".") && bytes_eqb z (bs "0") then option_map LFloat (read_nat k) else None
  | _ => None
  end.

Definition read_cmpop (s : bytes) : option cmpop :=
  if bytes_eqb s (bs "==") then Some CEq
  else if bytes_eqb s (bs "!=") then Some CNe
  else if bytes_eqb s (bs "<=") then Some CLe
  else if bytes_eqb s (bs ">") then Some CGt
  else None.

(** [a op b] with one comparison operator at top level *)
Fixpoint split_cmp (acc ts : list token) : option (list token * cmpop * list token) :=
  match ts with
  | [] => None
  | t :: r =>
      match t with
      | TPunct p => match read_cmpop p with
                    | Some op => Some (rev acc, op, r)
                    | None => split_cmp (t :: acc) r
                    end
      | _ => split_cmp (t :: acc) r
      end
  end.
Definition read_cmp (ts : list token) : option bexpr :=
  match split_cmp [] ts with
  | Some (a, op, b) =>
      match read_num a, read_lit b with
      | Some x, Some l => Some (BCmpNL x op l)
      | _, _ =>
          match read_lit a, read_num b with
          | Some l, Some x => Some (BCmpLN l op x)
          | _, _ => None
          end
      end
  | None => None
  end.

(** [(lo ..= hi).contains(&(x))] *)
Definition read_contains (ts : list token) : option bexpr :=
  match ts with
  | [TGroup DParen [TLit lo; TPunct rg; TLit hi]; TPunct d; TIdent c;
     TGroup DParen [TPunct amp; TGroup DParen x]] =>
      if bytes_eqb rg (bs "..=") && bytes_eqb d (bs ".") && bytes_eqb c (bs "contains")
         && bytes_eqb amp (bs "&") then
        match read_nat lo, read_nat hi, read_num x with
        | Some a, Some b, Some n => Some (BContains a b n)
        | _, _, _ => None
        end
      else None
  | _ => None
  end.

(** combine the pieces of a split with a left-associative operator *)
Definition join_left (f : bexpr -> bexpr -> bexpr) (l : list bexpr) : option bexpr :=
  match l with [] => None | x :: r => Some (fold_left f r x) end.
Fixpoint map_opt {A B} (f : A -> option B) (l : list A) : option (list B) :=
  match l with
  | [] => Some []
  | x :: r => match f x, map_opt f r with Some y, Some ys => Some (y :: ys) | _, _ => None end
  end.

(** a boolean expression; [fuel] bounds the nesting of parentheses *)
Fixpoint read_expr (fuel : nat) (ts : list token) : option bexpr :=
  match fuel with
  | O => None
  | S k =>
      let read_primary := fun ts : list token =>
        match read_contains ts with
        | Some e => Some e
        | None => match ts with [TGroup DParen inner] => read_expr k inner | _ => None end
        end in
      let read_unary := fun ts : list token =>
        match ts with
        | TPunct b :: r => if bytes_eqb b (bs "!") then option_map BNot (read_primary r) else None
        | _ => match read_primary ts with Some e => Some e | None => read_cmp ts end
        end in
      let read_and := fun ts : list token =>
        match map_opt read_unary (split_toks (bs "&&") ts) with
        | Some l => join_left BAnd l
        | None => None
        end in
      match map_opt read_and (split_toks (bs "||") ts) with
      | Some l => join_left BOr l
      | None => None
      end
  end.

Fixpoint token_depth (t : token) : nat :=
  match t with
  | TGroup _ ts => S ((fix go ts := match ts with
                       | [] => O
                       | t :: r => Nat.max (token_depth t) (go r)
                       end) ts)
  | _ => O
  end.
Definition tokens_depth (ts : list token) : nat :=
  fold_right (fun t a => Nat.max (token_depth t) a) O ts.
Definition read_bexpr (ts : list token) : option bexpr := read_expr (S (tokens_depth ts)) ts.

(** [{ PluralCategory::X }] *)
Definition category_of_ident (s : bytes) : option category :=
  if bytes_eqb s (bs "ZERO") then Some ZERO
  else if bytes_eqb s (bs "ONE") then Some ONE
  else if bytes_eqb s (bs "TWO") then Some TWO
  else if bytes_eqb s (bs "FEW") then Some FEW
  else if bytes_eqb s (bs "MANY") then Some MANY
  else if bytes_eqb s (bs "OTHER") then Some OTHER
  else None.
Definition read_cat (ts : list token) : option category :=
  match ts with
  | [TIdent a; TPunct b; TIdent c] =>
      if bytes_eqb a (bs "PluralCategory") && bytes_eqb b (bs "::") then category_of_ident c
      else None
  | _ => None
  end.

(** tokens before the first top-level brace group, the group, the rest *)
Fixpoint until_brace (acc ts : list token) : option (list token * list token * list token) :=
  match ts with
  | [] => None
  | TGroup DBrace g :: r => Some (rev acc, g, r)
  | t :: r => until_brace (t :: acc) r
  end.

(** [if e { c } else if ... else { c }] *)
Fixpoint read_chain (fuel : nat) (ts : list token) : option body :=
  match fuel with
  | O => None
  | S k =>
      match ts with
      | [TGroup DBrace g] => option_map (mkBody []) (read_cat g)
      | TIdent i :: r =>
          if bytes_eqb i (bs "if") then
            match until_brace [] r with
            | Some (cond, g, TIdent el :: rest) =>
                if bytes_eqb el (bs "else") then
                  match read_bexpr cond, read_cat g, read_chain k rest with
                  | Some e, Some c, Some b => Some (mkBody ((e, c) :: b_arms b) (b_else b))
                  | _, _, _ => None
                  end
                else None
            | _ => None
            end
          else None
      | _ => None
      end
  end.
(** the expression of the closure [|po| e]: [PluralCategory::X] alone or a block
    holding it or a chain *)
Definition read_body (ts : list token) : option body :=
  match ts with
  | [TGroup DBrace bd] =>
      match read_cat bd with
      | Some c => Some (mkBody [] c)
      | None => read_chain (S (List.length bd)) bd
      end
  | _ => option_map (mkBody []) (read_cat ts)
  end.

(** a literal with suffix [u64]/[u32] *)
Definition read_suffixed (suffix : bytes) (s : bytes) : option N :=
  let '(d, r) := span is_digit s in
  if bytes_eqb r suffix then read_nat d else None.
(** [subtags::Ty::from_raw_unchecked(lit)] *)
Definition read_raw (ty suffix : string) (ts : list token) : option bytes :=
  match ts with
  | [TIdent a; TPunct b; TIdent t; TPunct d; TIdent f; TGroup DParen [TLit l]] =>
      if bytes_eqb a (bs "subtags") && bytes_eqb b (bs "::") && bytes_eqb t (bs ty)
         && bytes_eqb d (bs "::") && bytes_eqb f (bs "from_raw_unchecked")
      then option_map subtag_of_raw (read_suffixed (bs suffix) l)
      else None
  | _ => None
  end.
(** [None] or [Some(subtags::Ty::from_raw_unchecked(lit))] *)
Definition read_opt_raw (ty : string) (ts : list token) : option (option bytes) :=
  match ts with
  | [TIdent n] => if bytes_eqb n (bs "None") then Some None else None
  | [TIdent s; TGroup DParen inner] =>
      if bytes_eqb s (bs "Some") then option_map Some (read_raw ty "u32" inner) else None
  | _ => None
  end.
(** [langid!(lang, script, region)]: rules.rs:11-15, variants [None] *)
Definition read_langid (args : list token) : option langid :=
  match split_toks (bs ",") args with
  | [l; s; r] =>
      match read_raw "Language" "u64" l, read_opt_raw "Script" s, read_opt_raw "Region" r with
      | Some l, Some s, Some r => Some (mkLang (Some l) s r None)
      | _, _, _ => None
      end
  | _ => None
  end.

(** split at commas, an empty last piece (trailing comma) dropped *)
Fixpoint drop_last_empty (l : list (list token)) : list (list token) :=
  match l with
  | [] => []
  | [[]] => []
  | x :: r => x :: drop_last_empty r
  end.

(** one table entry [(langid!(...), |po| ...)]; the first comma at top level
    separates the two components, rustfmt may add a trailing one *)
Definition read_entry (ts : list token) : option (langid * body) :=
  match ts with
  | [TGroup DParen (TIdent m :: TPunct b :: TGroup DParen args :: TPunct c
                    :: TPunct p1 :: TIdent po :: TPunct p2 :: bd)] =>
      if bytes_eqb m (bs "langid") && bytes_eqb b (bs "!") && bytes_eqb c (bs ",")
         && bytes_eqb p1 (bs "|") && bytes_eqb po (bs "po") && bytes_eqb p2 (bs "|")
      then
        match read_langid args, drop_last_empty (split_toks (bs ",") bd) with
        | Some l, [e] => option_map (pair l) (read_body e)
        | _, _ => None
        end
      else None
  | _ => None
  end.
Definition read_table (ts : list token) : option (list (langid * body)) :=
  map_opt read_entry (drop_last_empty (split_toks (bs ",") ts)).

(** the items [pub const NAME: &[...] = &[...];] and
    [pub static CLDR_VERSION: usize = k;] of a file *)
Fixpoint find_table (name : bytes) (ts : list token) : option (list (langid * body)) :=
  match ts with
  | TIdent n :: ((TPunct c :: TPunct a :: TGroup DBracket _ :: TPunct e :: TPunct a2
                  :: TGroup DBracket tbl :: TPunct sc :: _) as r) =>
      if bytes_eqb n name && bytes_eqb c (bs ":") && bytes_eqb a (bs "&") && bytes_eqb e (bs "=")
         && bytes_eqb a2 (bs "&") && bytes_eqb sc (bs ";")
      then read_table tbl else find_table name r
  | _ :: r => find_table name r
  | [] => None
  end.
Fixpoint find_version (ts : list token) : option N :=
  match ts with
  | TIdent n :: ((TPunct c :: TIdent u :: TPunct e :: TLit k :: TPunct sc :: _) as r) =>
      if bytes_eqb n (bs "CLDR_VERSION") && bytes_eqb c (bs ":") && bytes_eqb u (bs "usize")
         && bytes_eqb e (bs "=") && bytes_eqb sc (bs ";")
      then read_nat k else find_version r
  | _ :: r => find_version r
  | [] => None
  end.

(** the contents of a generated file *)
Record rules_file := mkFile {
  rf_version : option N;
  rf_cardinal : option (list (langid * body));
  rf_ordinal : option (list (langid * body)) }.
Definition read_file (ts : list token) : rules_file :=
  mkFile (find_version ts) (find_table (bs "PRS_CARDINAL") ts) (find_table (bs "PRS_ORDINAL") ts).
