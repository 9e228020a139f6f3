(** * Token trees (the [proc_macro2]/[quote] crates) and a Rust lexer

    [quote!] pushes an operator of several characters as joint single-character
    [Punct]s; here such an operator is one token, which prints the same. *)
From Verif Require Import Base.
Open Scope N_scope.

Inductive delim := DParen | DBrace | DBracket.
Inductive token :=
| TIdent (s : bytes)
| TPunct (s : bytes)
| TLit (s : bytes)
| TGroup (d : delim) (ts : list token).

(** abbreviations for writing [quote!] templates *)
Definition I (s : string) : token := TIdent (bs s).
Definition P (s : string) : token := TPunct (bs s).
Definition Par (ts : list token) : token := TGroup DParen ts.
Definition Brace (ts : list token) : token := TGroup DBrace ts.
Definition Bracket (ts : list token) : token := TGroup DBracket ts.
Arguments I s%string_scope.
Arguments P s%string_scope.

(** [Literal::u64_unsuffixed] (gen_pr.rs:13), and [ToTokens] of a [u64]/[u32]
    (gen_rs.rs:83, 88, 93) *)
Definition lit_u64 (n : N) : token := TLit (dec_of_N n).
Definition lit_u64_suffixed (n : N) : token := TLit (dec_of_N n ++ bs "u64").
Definition lit_u32_suffixed (n : N) : token := TLit (dec_of_N n ++ bs "u32").

(** the repetition [#(#xs) sep *] of [quote!] *)
Fixpoint sep_by (sep : list token) (xs : list (list token)) : list token :=
  match xs with
  | [] => []
  | [x] => x
  | x :: r => x ++ sep ++ sep_by sep r
  end.

(** ** [Display for TokenStream] (lib.rs:59 of make_pluralrules), in the layout
    of the fixture tests/fixtures/cldr_pluralrules_33.rs: one space between
    trees, none inside parentheses and brackets, one inside braces. *)
Definition open_of (d : delim) : bytes :=
  match d with DParen => bs "(" | DBrace => bs "{ " | DBracket => bs "[" end.
Definition close_of (d : delim) : bytes :=
  match d with DParen => bs ")" | DBrace => bs " }" | DBracket => bs "]" end.

Fixpoint print_token (t : token) : bytes :=
  match t with
  | TIdent s | TPunct s | TLit s => s
  | TGroup d ts =>
      open_of d
      ++ (fix go ts := match ts with
          | [] => []
          | [t] => print_token t
          | t :: r => print_token t ++ 32 :: go r
          end) ts
      ++ close_of d
  end.
Fixpoint print_tokens (ts : list token) : bytes :=
  match ts with
  | [] => []
  | [t] => print_token t
  | t :: r => print_token t ++ 32 :: print_tokens r
  end.

(** ** A lexer for the Rust source fragment found in rules.rs

    The Rust lexical rules that matter there: identifiers, decimal literals
    with optional suffix, [k.0] floats (a digit must follow the point),
    string literals without escapes, operators by longest match, whitespace. *)
Definition is_ident_start (c : N) : bool := is_alpha c || (c =? 95).
Definition is_ident_cont (c : N) : bool := is_alnum c || (c =? 95).
Definition is_ws (c : N) : bool := (c =? 32) || (c =? 10) || (c =? 9) || (c =? 13).

(** multi-character operators, longest first *)
Definition operators : list bytes :=
  List.map bs ["..="; "::"; "->"; "=>"; "=="; "!="; "<="; ">="; "&&"; "||"; ".."]%string.
Definition single_puncts : bytes := bs "#!$,;:=&|.<>%".
Fixpoint lex_op (ops : list bytes) (s : bytes) : option (bytes * bytes) :=
  match ops with
  | [] => match s with
          | c :: r => if existsb (fun x => x =? c) single_puncts then Some ([c], r) else None
          | [] => None
          end
  | o :: os => match strip o s with Some r => Some (o, r) | None => lex_op os s end
  end.

Definition delim_eqb (a b : delim) : bool :=
  match a, b with DParen, DParen | DBrace, DBrace | DBracket, DBracket => true | _, _ => false end.

(** [cur] is the current level, reversed; [stk] the enclosing open levels.  The
    input itself serves as fuel: every step consumes at least one byte. *)
Fixpoint lex_go (fuel s : bytes) (cur : list token) (stk : list (delim * list token))
  : option (list token) :=
  match fuel with
  | [] => None
  | _ :: k =>
      match s with
      | [] => match stk with [] => Some (rev cur) | _ => None end
      | c :: r =>
          let emit t r := lex_go k r (t :: cur) stk in
          let opn d := lex_go k r [] ((d, cur) :: stk) in
          let cls d := match stk with
                       | (d', up) :: stk' =>
                           if delim_eqb d d' then lex_go k r (TGroup d (rev cur) :: up) stk'
                           else None
                       | [] => None
                       end in
          if is_ws c then lex_go k r cur stk
          else if c =? 40 then opn DParen
          else if c =? 41 then cls DParen
          else if c =? 123 then opn DBrace
          else if c =? 125 then cls DBrace
          else if c =? 91 then opn DBracket
          else if c =? 93 then cls DBracket
          else if is_ident_start c then
            let '(w, r') := span is_ident_cont s in emit (TIdent w) r'
          else if is_digit c then
            let '(w, r') := span is_ident_cont s in
            match r' with
            | 46 :: ((d :: _) as r2) =>
                if is_digit d then
                  let '(w2, r3) := span is_ident_cont r2 in emit (TLit (w ++ 46 :: w2)) r3
                else emit (TLit w) r'
            | _ => emit (TLit w) r'
            end
          else if c =? 34 then
            let '(w, r') := span (fun x => negb (x =? 34)) r in
            match r' with
            | _ :: r2 => emit (TLit (34 :: w ++ [34])) r2
            | [] => None
            end
          else match lex_op operators s with
               | Some (o, r') => emit (TPunct o) r'
               | None => None
               end
      end
  end.

Definition lex (s : bytes) : option (list token) := lex_go (0 :: s) s [] [].

(** ** The same printer with an accumulator, for evaluation on whole files *)
Fixpoint print_token_acc (t : token) (acc : bytes) : bytes :=
  match t with
  | TIdent s | TPunct s | TLit s => s ++ acc
  | TGroup d ts =>
      open_of d
      ++ (fix go ts acc := match ts with
          | [] => acc
          | [t] => print_token_acc t acc
          | t :: r => print_token_acc t (32 :: go r acc)
          end) ts (close_of d ++ acc)
  end.
Fixpoint print_tokens_acc (ts : list token) (acc : bytes) : bytes :=
  match ts with
  | [] => acc
  | [t] => print_token_acc t acc
  | t :: r => print_token_acc t (32 :: print_tokens_acc r acc)
  end.

Fixpoint print_token_acc_eq (t : token) : forall acc, print_token_acc t acc = print_token t ++ acc.
Proof.
  destruct t as [s|s|s|d ts]; intros acc; try reflexivity.
  simpl. rewrite <- !app_assoc. f_equal.
  revert acc. induction ts as [|t r IH]; intros acc; [reflexivity|].
  destruct r as [|t2 r].
  - apply print_token_acc_eq.
  - rewrite print_token_acc_eq, <- app_assoc. f_equal. simpl. f_equal. apply IH.
Qed.
Lemma print_tokens_acc_eq ts : forall acc, print_tokens_acc ts acc = print_tokens ts ++ acc.
Proof.
  induction ts as [|t r IH]; intros acc; [reflexivity|].
  destruct r as [|t2 r].
  - apply print_token_acc_eq.
  - cbn [print_tokens_acc print_tokens]. rewrite print_token_acc_eq, <- app_assoc. f_equal.
    simpl. f_equal. apply IH.
Qed.
Lemma print_tokens_fast ts : print_tokens ts = print_tokens_acc ts [].
Proof. now rewrite print_tokens_acc_eq, app_nil_r. Qed.
