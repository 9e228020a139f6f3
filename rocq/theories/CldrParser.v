(** * cldr_pluralrules_parser/src/parser.rs and src/lib.rs *)
From Verif Require Import Base Nom Ast.
Open Scope N_scope.

Section Width.
Context {ptr : ptr_width}.

(** parser.rs:13-15 [value] *)
Definition p_value : parser value := pmap_res usize_from_str digit1.

(** parser.rs:17-25 [range] *)
Definition p_range : parser range :=
  pmap (fun '(lo, up) => mkRange lo up) (separated_pair p_value (tag (bs "..")) p_value).

(** parser.rs:27-32 [range_list_item] *)
Definition p_range_list_item : parser range_list_item :=
  palt (pmap RRange p_range) (pmap RValue p_value).

(** [tuple((space0, tag(","), space0))], parser.rs:36, 134, 136 *)
Definition p_comma : parser (bytes * (bytes * bytes)) :=
  pseq space0 (pseq (tag (bs ",")) space0).

(** parser.rs:34-39 [range_list] *)
Definition p_range_list : parser range_list := separated_list p_comma p_range_list_item.

(** parser.rs:41-51 [operand].  The [unreachable!()] arm (line 49) is the
    [None] case, turned into [PFuel] ("not an ordinary result"). *)
Definition operand_of_char (c : N) : option operand :=
  if c =? 110 then Some ON        (* 'n' *)
  else if c =? 105 then Some OI   (* 'i' *)
  else if c =? 118 then Some OV   (* 'v' *)
  else if c =? 119 then Some OW   (* 'w' *)
  else if c =? 102 then Some OF   (* 'f' *)
  else if c =? 116 then Some OT   (* 't' *)
  else None.
Definition p_operand : parser operand :=
  fun i => pbind (one_of (bs "nivwft") i)
             (fun r c => match operand_of_char c with Some o => PO r o | None => PFuel end).

(** parser.rs:53-58 [mod_expression] *)
Definition p_mod_expression : parser (option value) :=
  popt (preceded (pseq space0 (pseq (palt (tag (bs "mod")) (tag (bs "%"))) space1)) p_value).

(** parser.rs:60-64 [expression] *)
Definition p_expression : parser expression :=
  pmap (fun '(o, m) => mkExpr o m) (pseq p_operand p_mod_expression).

(** parser.rs:66-91 [relation_operator], alternatives in source order *)
Definition p_relation_operator : parser operator :=
  palt (pmap (fun _ => OpEQ) (tag (bs "=")))
  (palt (pmap (fun _ => OpNotEQ) (tag (bs "!=")))
  (palt (pmap (fun '(_, (_, n)) => match n with Some _ => OpIsNot | None => OpIs end)
              (pseq (tag (bs "is")) (pseq space1 (popt (tag (bs "not"))))))
  (palt (pmap (fun _ => OpIn) (tag (bs "in")))
  (palt (pmap (fun '(_, (_, v)) => v)
              (pseq (tag (bs "not"))
              (pseq space1
                    (palt (pmap (fun _ => OpNotIn) (tag (bs "in")))
                          (pmap (fun _ => OpNotWithin) (tag (bs "within")))))))
        (pmap (fun _ => OpWithin) (tag (bs "within"))))))).

(** parser.rs:93-102 [relation] *)
Definition p_relation : parser relation :=
  pmap (fun '(e, (_, (o, (_, l)))) => mkRel e o l)
       (pseq p_expression (pseq space0 (pseq p_relation_operator (pseq space0 p_range_list)))).

(** [tuple((space1, tag("and"), space1))] etc. *)
Definition p_word (w : bytes) : parser (bytes * (bytes * bytes)) :=
  pseq space1 (pseq (tag w) space1).

(** parser.rs:104-109 [and_condition] *)
Definition p_and_condition : parser and_condition :=
  separated_nonempty_list (p_word (bs "and")) p_relation.

(** parser.rs:111-116 [decimal_value] *)
Definition p_decimal_value : parser decimal_value :=
  pmap (fun '(i, d) => mkDec i d) (pseq p_value (popt (preceded (tag (bs ".")) p_value))).

(** parser.rs:118-129 [sample_range] *)
Definition p_sample_range : parser sample_range :=
  pmap (fun '(lo, up) => mkSR lo up)
       (pseq p_decimal_value
             (popt (preceded (pseq space0 (pseq (tag (bs "~")) space0)) p_decimal_value))).

(** parser.rs:131-145 [sample_list]; "…" is U+2026, three bytes *)
Definition p_sample_list : parser sample_list :=
  pmap (fun '(l, e) => mkSL l (match e with Some _ => true | None => false end))
       (pseq (separated_nonempty_list p_comma p_sample_range)
             (popt (preceded p_comma (palt (tag (bs "...")) (tag (bs "…")))))).

(** parser.rs:147-167 [samples] *)
Definition p_samples : parser (option samples) :=
  pmap (fun '(i, d) =>
          match i, d with
          | None, None => None
          | _, _ => Some (mkSamples i d)
          end)
       (pseq (popt (preceded (p_word (bs "@integer")) p_sample_list))
             (popt (preceded (p_word (bs "@decimal")) p_sample_list))).

(** ** [str::trim] (parser.rs:177, 181): Unicode [White_Space] in UTF-8 *)
Definition ws_prefix (s : bytes) : option bytes :=
  match s with
  | a :: r =>
      if ((9 <=? a) && (a <=? 13)) || (a =? 32) then Some r
      else match r with
      | b :: r1 =>
          if (a =? 194) && ((b =? 133) || (b =? 160)) then Some r1      (* U+0085, U+00A0 *)
          else match r1 with
          | c :: r2 =>
              if ((a =? 225) && (b =? 154) && (c =? 128))               (* U+1680 *)
                 || ((a =? 226) && (b =? 128)
                     && (((128 <=? c) && (c <=? 138))                   (* U+2000..200A *)
                         || (c =? 168) || (c =? 169) || (c =? 175)))    (* U+2028, 2029, 202F *)
                 || ((a =? 226) && (b =? 129) && (c =? 159))            (* U+205F *)
                 || ((a =? 227) && (b =? 128) && (c =? 128))            (* U+3000 *)
              then Some r2 else None
          | [] => None
          end
      | [] => None
      end
  | [] => None
  end.
Fixpoint trim_start_fuel (fuel : nat) (s : bytes) : bytes :=
  match fuel with
  | O => s
  | S k => match ws_prefix s with Some r => trim_start_fuel k r | None => s end
  end.
Definition trim_start (s : bytes) : bytes := trim_start_fuel (List.length s) s.

(** the same on the reversed string, for the end *)
Definition ws_suffix_rev (s : bytes) : option bytes :=
  match s with
  | c :: r =>
      if ((9 <=? c) && (c <=? 13)) || (c =? 32) then Some r
      else match r with
      | b :: r1 =>
          if (b =? 194) && ((c =? 133) || (c =? 160)) then Some r1
          else match r1 with
          | a :: r2 =>
              if ((a =? 225) && (b =? 154) && (c =? 128))
                 || ((a =? 226) && (b =? 128)
                     && (((128 <=? c) && (c <=? 138))
                         || (c =? 168) || (c =? 169) || (c =? 175)))
                 || ((a =? 226) && (b =? 129) && (c =? 159))
                 || ((a =? 227) && (b =? 128) && (c =? 128))
              then Some r2 else None
          | [] => None
          end
      | [] => None
      end
  | [] => None
  end.
Fixpoint trim_end_rev_fuel (fuel : nat) (s : bytes) : bytes :=
  match fuel with
  | O => s
  | S k => match ws_suffix_rev s with Some r => trim_end_rev_fuel k r | None => s end
  end.
Definition trim_end (s : bytes) : bytes := rev (trim_end_rev_fuel (List.length s) (rev s)).
Definition trim (s : bytes) : bytes := trim_end (trim_start s).

(** parser.rs:175-188 [parse_condition] *)
Definition p_condition : parser condition :=
  fun i =>
    match trim i with
    | [] => PO [] []                                       (* 177-179 *)
    | c :: _ =>
        if c =? 64 then PO [] []                           (* 181-183, '@' *)
        else separated_nonempty_list (p_word (bs "or")) p_and_condition i   (* 184-187 *)
    end.

(** parser.rs:169-173 [parse_rule] *)
Definition p_rule : parser rule :=
  pmap (fun '(c, s) => mkRule c s) (pseq p_condition p_samples).

(** lib.rs:83 [format!("Left string: {}", left)]: bytes back as a message,
    the inverse of [bs] *)
Definition text_of (s : bytes) : string := string_of_list_ascii (List.map ascii_of_N s).

(** lib.rs:79-86 [parse_plural_rule] *)
Definition parse_plural_rule (source : bytes) : res rule :=
  match p_rule source with
  | PO [] r => Ok r
  | PO rest _ => Err ("Left string: " ++ text_of rest)%string
  | PE => Err "Parser failed"
  | PFuel => Panic "unreachable"
  end.

(** lib.rs:88-93 [parse_plural_condition] *)
Definition parse_plural_condition (source : bytes) : res condition :=
  match p_condition source with
  | PO _ c => Ok c
  | PE => Err "Parser failed"
  | PFuel => Panic "unreachable"
  end.
End Width.
