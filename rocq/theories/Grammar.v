(** * CLDR plural rule syntax

    A grammar, independent of the parser: which texts denote which syntax tree.
    UTS #35 part 3, "Plural rules syntax", with the blanks (spaces and tabs)
    between tokens that the crate accepts. *)
From Verif Require Import Base Ast Spec.
Open Scope N_scope.

Section Width.
Context {ptr : ptr_width}.

Definition blanks (s : bytes) : Prop := Forall (fun c => c = 32 \/ c = 9) s.
Definition blanks1 (s : bytes) : Prop := blanks s /\ s <> [].

(** [x1 sep x2 sep ... xn], at least one [x] *)
Inductive sep_list {A} (sep : bytes -> Prop) (g : A -> bytes -> Prop) : list A -> bytes -> Prop :=
| sep_one a s : g a s -> sep_list sep g [a] s
| sep_cons a s p l t : g a s -> sep p -> sep_list sep g l t -> sep_list sep g (a :: l) (s ++ p ++ t).

Definition comma (s : bytes) : Prop := exists b1 b2, blanks b1 /\ blanks b2 /\ s = b1 ++ bs "," ++ b2.
Definition word (w s : bytes) : Prop := exists b1 b2, blanks1 b1 /\ blanks1 b2 /\ s = b1 ++ w ++ b2.

(** value = digit+, and the number fits [usize] *)
Definition g_value (k : value) (s : bytes) : Prop := digits s /\ s <> [] /\ k = dval s /\ k < usize_limit.

(** range = value '..' value *)
Inductive g_item : range_list_item -> bytes -> Prop :=
| gi_value k s : g_value k s -> g_item (RValue k) s
| gi_range lo up s t : g_value lo s -> g_value up t -> g_item (RRange (mkRange lo up)) (s ++ bs ".." ++ t).

(** range_list = (range | value) (',' range_list)* *)
Definition g_list : range_list -> bytes -> Prop := sep_list comma g_item.

Definition operand_text (o : operand) : bytes :=
  match o with
  | ON => bs "n" | OI => bs "i" | OV => bs "v" | OW => bs "w" | OF => bs "f" | OT => bs "t"
  end.
(** expr = operand (('mod' | '%') value)? *)
Inductive g_expr : expression -> bytes -> Prop :=
| ge_plain o : g_expr (mkExpr o None) (operand_text o)
| ge_mod o b1 w b2 k s : blanks b1 -> w = bs "mod" \/ w = bs "%" -> blanks1 b2 -> g_value k s ->
    g_expr (mkExpr o (Some k)) (operand_text o ++ b1 ++ w ++ b2 ++ s).

Inductive g_op : operator -> bytes -> Prop :=
| go_eq : g_op OpEQ (bs "=")
| go_neq : g_op OpNotEQ (bs "!=")
| go_is : g_op OpIs (bs "is")
| go_isnot b : blanks1 b -> g_op OpIsNot (bs "is" ++ b ++ bs "not")
| go_in : g_op OpIn (bs "in")
| go_notin b : blanks1 b -> g_op OpNotIn (bs "not" ++ b ++ bs "in")
| go_within : g_op OpWithin (bs "within")
| go_notwithin b : blanks1 b -> g_op OpNotWithin (bs "not" ++ b ++ bs "within").

(** relation = expr operator range_list; with [strict = false] the list may be
    missing *)
Definition g_list_opt (strict : bool) (l : range_list) (s : bytes) : Prop :=
  g_list l s \/ (strict = false /\ l = [] /\ s = []).
Inductive g_relation (strict : bool) : relation -> bytes -> Prop :=
| gr e es b1 o os b2 l ls :
    g_expr e es -> blanks b1 -> g_op o os -> blanks b2 -> (o = OpIs -> b2 <> []) ->
    g_list_opt strict l ls ->
    g_relation strict (mkRel e o l) (es ++ b1 ++ os ++ b2 ++ ls).

Definition g_and (strict : bool) : and_condition -> bytes -> Prop :=
  sep_list (word (bs "and")) (g_relation strict).
Definition g_condition (strict : bool) : condition -> bytes -> Prop :=
  sep_list (word (bs "or")) (g_and strict).

(** decimalValue = value ('.' value)? *)
Inductive g_decimal : decimal_value -> bytes -> Prop :=
| gd_int k s : g_value k s -> g_decimal (mkDec k None) s
| gd_frac k s f t : g_value k s -> g_value f t -> g_decimal (mkDec k (Some f)) (s ++ bs "." ++ t).
(** sampleRange = decimalValue ('~' decimalValue)? *)
Inductive g_sample_range : sample_range -> bytes -> Prop :=
| gs_one x s : g_decimal x s -> g_sample_range (mkSR x None) s
| gs_two x s b1 b2 y t : g_decimal x s -> blanks b1 -> blanks b2 -> g_decimal y t ->
    g_sample_range (mkSR x (Some y)) (s ++ b1 ++ bs "~" ++ b2 ++ t).
(** sampleList = sampleRange (',' sampleRange)* (',' ('...' | U+2026))? *)
Inductive g_sample_list : sample_list -> bytes -> Prop :=
| gl_closed l s : sep_list comma g_sample_range l s -> g_sample_list (mkSL l false) s
| gl_open l s p w : sep_list comma g_sample_range l s -> comma p -> w = bs "..." \/ w = bs "…" ->
    g_sample_list (mkSL l true) (s ++ p ++ w).
(** samples = ('@integer' sampleList)? ('@decimal' sampleList)? *)
Inductive g_part (w : bytes) : option sample_list -> bytes -> Prop :=
| gp_none : g_part w None []
| gp_some p l s : word w p -> g_sample_list l s -> g_part w (Some l) (p ++ s).
Definition make_samples (i d : option sample_list) : option samples :=
  match i, d with None, None => None | _, _ => Some (mkSamples i d) end.
Inductive g_samples : option samples -> bytes -> Prop :=
| gsa i si d sd : g_part (bs "@integer") i si -> g_part (bs "@decimal") d sd ->
    g_samples (make_samples i d) (si ++ sd).

(** rule = condition samples *)
Inductive g_rule (strict : bool) : rule -> bytes -> Prop :=
| gru c sc sa ss : g_condition strict c sc -> g_samples sa ss -> g_rule strict (mkRule c sa) (sc ++ ss).

(** ** What the crate accepts beyond that

    The very last relation of a condition may lack its values. *)
(** [x1 sep x2 sep ... y], where the last element is from another language *)
Inductive last_list {A} (sep : bytes -> Prop) (g h : A -> bytes -> Prop) : list A -> bytes -> Prop :=
| last_one a s : h a s -> last_list sep g h [a] s
| last_cons a s p l t : g a s -> sep p -> last_list sep g h l t -> last_list sep g h (a :: l) (s ++ p ++ t).
Definition g_open_and : and_condition -> bytes -> Prop :=
  last_list (word (bs "and")) (g_relation true) (g_relation false).
Definition g_open_condition : condition -> bytes -> Prop :=
  last_list (word (bs "or")) (g_and true) g_open_and.
(** no digits are cut in two between [t] and [rest] *)
Definition whole (t rest : bytes) : Prop :=
  forall x c d y, t = x ++ [c] -> rest = d :: y -> ~ (digit_char c /\ digit_char d).

(** [t] is the longest beginning of [s] that is a condition *)
Definition longest_condition (s : bytes) (c : condition) (t rest : bytes) : Prop :=
  s = t ++ rest /\ whole t rest /\ g_open_condition c t /\
  forall c' t' rest', s = t' ++ rest' -> whole t' rest' -> g_open_condition c' t' -> (List.length t' <= List.length t)%nat.

(** no beginning of [s] is a condition *)
Definition no_beginning (s : bytes) : Prop :=
  forall c t rest, s = t ++ rest -> whole t rest -> ~ g_open_condition c t.
(** [t] is the longest beginning of [s] that is a list of samples *)
Definition longest_samples (s : bytes) (sa : option samples) (t rest : bytes) : Prop :=
  s = t ++ rest /\ whole t rest /\ g_samples sa t /\
  forall sa' t' rest', s = t' ++ rest' -> whole t' rest' -> g_samples sa' t' -> (List.length t' <= List.length t)%nat.

(** no relation without values *)
Definition lists_nonempty (c : condition) : Prop :=
  Forall (Forall (fun r => rel_list r <> [])) c.

(** numbers fit [usize] *)
Definition value_fits (k : value) : Prop := k < usize_limit.
Definition item_fits (it : range_list_item) : Prop :=
  match it with RValue k => value_fits k | RRange r => value_fits (lower_val r) /\ value_fits (upper_val r) end.
Definition relation_fits (r : relation) : Prop :=
  match ex_modulus (rel_expr r) with Some m => value_fits m | None => True end /\ Forall item_fits (rel_list r).
Definition condition_fits (c : condition) : Prop := Forall (Forall relation_fits) c.
Definition decimal_fits (d : decimal_value) : Prop :=
  value_fits (dv_integer d) /\ match dv_decimal d with Some k => value_fits k | None => True end.
Definition srange_fits (r : sample_range) : Prop :=
  decimal_fits (sr_lower r) /\ match sr_upper r with Some d => decimal_fits d | None => True end.
Definition slist_fits (l : sample_list) : Prop := Forall srange_fits (sl_ranges l).
Definition samples_fit (s : samples) : Prop :=
  match sa_integer s with Some l => slist_fits l | None => True end /\
  match sa_decimal s with Some l => slist_fits l | None => True end.

(** ** A canonical text for a syntax tree *)
Fixpoint join (sep : bytes) (l : list bytes) : bytes :=
  match l with
  | [] => []
  | [x] => x
  | x :: r => x ++ sep ++ join sep r
  end.
Definition print_item (it : range_list_item) : bytes :=
  match it with
  | RValue k => dec_of_N k
  | RRange r => dec_of_N (lower_val r) ++ bs ".." ++ dec_of_N (upper_val r)
  end.
Definition print_expr (e : expression) : bytes :=
  operand_text (ex_operand e) ++
  match ex_modulus e with None => [] | Some m => bs " % " ++ dec_of_N m end.
Definition print_op (o : operator) : bytes :=
  match o with
  | OpEQ => bs "=" | OpNotEQ => bs "!=" | OpIs => bs "is" | OpIsNot => bs "is not"
  | OpIn => bs "in" | OpNotIn => bs "not in" | OpWithin => bs "within" | OpNotWithin => bs "not within"
  end.
Definition print_relation (r : relation) : bytes :=
  print_expr (rel_expr r) ++ bs " " ++ print_op (rel_op r) ++ bs " " ++
  join (bs ",") (List.map print_item (rel_list r)).
Definition print_condition (c : condition) : bytes :=
  join (bs " or ") (List.map (fun a => join (bs " and ") (List.map print_relation a)) c).
Definition print_decimal (d : decimal_value) : bytes :=
  dec_of_N (dv_integer d) ++ match dv_decimal d with None => [] | Some f => bs "." ++ dec_of_N f end.
Definition print_sample_range (r : sample_range) : bytes :=
  print_decimal (sr_lower r) ++ match sr_upper r with None => [] | Some u => bs "~" ++ print_decimal u end.
Definition print_sample_list (l : sample_list) : bytes :=
  join (bs ", ") (List.map print_sample_range (sl_ranges l)) ++ (if sl_ellipsis l then bs ", …" else []).
Definition print_part (w : bytes) (l : option sample_list) : bytes :=
  match l with None => [] | Some l => bs " " ++ w ++ bs " " ++ print_sample_list l end.
Definition print_rule (r : rule) : bytes :=
  print_condition (ru_condition r) ++
  match ru_samples r with
  | None => []
  | Some s => print_part (bs "@integer") (sa_integer s) ++ print_part (bs "@decimal") (sa_decimal s)
  end.

(** trees that have a text: no empty list anywhere, and samples not both absent *)
Definition printable_condition (c : condition) : Prop :=
  c <> [] /\ Forall (fun a => a <> []) c /\ lists_nonempty c /\ condition_fits c.
Definition printable_part (l : option sample_list) : Prop :=
  match l with None => True | Some l => sl_ranges l <> [] /\ slist_fits l end.
Definition printable_samples (s : option samples) : Prop :=
  match s with
  | None => True
  | Some s => (sa_integer s <> None \/ sa_decimal s <> None) /\
              printable_part (sa_integer s) /\ printable_part (sa_decimal s)
  end.
Definition printable (r : rule) : Prop :=
  printable_condition (ru_condition r) /\ printable_samples (ru_samples r).

(** ** White space as [str::trim] understands it: UTF-8 encodings of the
    characters with property White_Space *)
Definition white_char (s : bytes) : Prop :=
  In s ([[9]; [10]; [11]; [12]; [13]; [32]; [194; 133]; [194; 160]; [225; 154; 128];
         [226; 128; 168]; [226; 128; 169]; [226; 128; 175]; [226; 129; 159]; [227; 128; 128]] ++
        List.map (fun k => [226; 128; 128 + k]) [0; 1; 2; 3; 4; 5; 6; 7; 8; 9; 10]).
Inductive white : bytes -> Prop :=
| white_nil : white []
| white_cons c s : white_char c -> white s -> white (c ++ s).
(** only white space, or a sample marker first *)
Definition no_condition (s : bytes) : Prop := white s \/ exists w r, white w /\ s = w ++ 64 :: r.

(** ** Tokens with free blanks, as UTS #35 allows them

    "Whitespace can occur between or around any of the above tokens": any blanks
    around tokens, at least one between two tokens that would otherwise read as
    one word or number. *)
Definition word_char (c : N) : bool :=
  ((48 <=? c) && (c <=? 57)) || ((65 <=? c) && (c <=? 90)) || ((97 <=? c) && (c <=? 122)).
Definition touching (a b : bytes) : Prop :=
  exists x y r t, a = r ++ [x] /\ b = y :: t /\ word_char x = true /\ word_char y = true.
Inductive spaced : list bytes -> bytes -> Prop :=
| spaced_nil b : blanks b -> spaced [] b
| spaced_one b t b' : blanks b -> blanks b' -> spaced [t] (b ++ t ++ b')
| spaced_cons b t u ts s : blanks b -> spaced (u :: ts) s ->
    (touching t u -> exists c r, s = c :: r /\ (c = 32 \/ c = 9)) -> spaced (t :: u :: ts) (b ++ t ++ s).

(** the tokens of a condition *)
Definition item_tokens (it : range_list_item) : list bytes :=
  match it with
  | RValue k => [dec_of_N k]
  | RRange r => [dec_of_N (lower_val r); bs ".."; dec_of_N (upper_val r)]
  end.
Fixpoint join_tokens (sep : bytes) (l : list (list bytes)) : list bytes :=
  match l with
  | [] => []
  | [x] => x
  | x :: r => x ++ [sep] ++ join_tokens sep r
  end.
Definition relation_tokens (r : relation) : list bytes :=
  [operand_text (ex_operand (rel_expr r))] ++
  match ex_modulus (rel_expr r) with None => [] | Some m => [bs "%"; dec_of_N m] end ++
  match rel_op r with
  | OpEQ => [bs "="] | OpNotEQ => [bs "!="] | OpIs => [bs "is"] | OpIsNot => [bs "is"; bs "not"]
  | OpIn => [bs "in"] | OpNotIn => [bs "not"; bs "in"] | OpWithin => [bs "within"] | OpNotWithin => [bs "not"; bs "within"]
  end ++
  join_tokens (bs ",") (List.map item_tokens (rel_list r)).
Definition condition_tokens (c : condition) : list bytes :=
  join_tokens (bs "or") (List.map (fun a => join_tokens (bs "and") (List.map relation_tokens a)) c).

(** every run of digits in [s] denotes a number below [usize_limit] *)
Definition numbers_fit (s : bytes) : Prop :=
  forall a ds b, s = a ++ ds ++ b -> digits ds -> dval ds < usize_limit.

(** a sample numeral [i.f] *)
Definition sample_numeral (i f : bytes) : Prop :=
  digits i /\ digits f /\ i <> [] /\ f <> [] /\ dval i < usize_limit /\ dval f < usize_limit.
Definition no_leading_zero (s : bytes) : Prop := s = [48] \/ hd 0 s <> 48.
End Width.
