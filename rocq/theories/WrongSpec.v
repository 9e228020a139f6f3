(** * Exactly which numbers get a wrong category (C79)

    A closed description, locale by locale, of the numbers for which the shipped
    function does not answer what CLDR prescribes.  The conditions are written by
    hand from the rules; [i] is the integer part of the number, [v] how many
    fraction digits it shows, [f] those digits read as a number.  Locales outside
    the tables are never wrong. *)
From Verif Require Import Base LangId GenRs PluralRules Spec LangIdFacts ApiProps Conformance.
Open Scope N_scope.

Definition among (x : N) (l : list N) : bool := existsb (N.eqb x) l.
Definition between (a x b : N) : bool := (a <=? x) && (x <=? b).

(** [whole i] decides for the numbers without fraction, [part i] for the others *)
Definition cases (whole part : N -> bool) (i v f : N) : bool := if f =? 0 then whole i else part i.

(** Arabic: [n % 100 = 3..10] and [n % 100 = 11..99] are compared without the modulus *)
Definition wrong_ar : N -> N -> N -> bool :=
  cases (fun i => (100 <=? i) && (3 <=? i mod 100)) (fun i => between 3 i 99).
(** Belarusian *)
Definition wrong_be : N -> N -> N -> bool :=
  cases (fun i => (15 <=? i) && ((2 <=? i mod 10) || (i mod 100 =? 11)))
        (fun i => (i mod 10 =? 0) || ((i mod 10 =? 1) && negb (i mod 100 =? 11)) || between 2 i 14).
(** Breton *)
Definition wrong_br : N -> N -> N -> bool :=
  cases (fun i => ((5 <=? i) && among (i mod 10) [3; 4] &&
                     negb (between 10 (i mod 100) 19 || between 70 (i mod 100) 79 || between 90 (i mod 100) 99))
                  || ((100 <=? i) && among (i mod 100) [19; 79; 99]))
        (fun i => ((i mod 10 =? 9) && negb (among i [19; 79; 99])) || among i [3; 4] || (i mod 1000000 =? 0)
                  || ((i mod 10 =? 1) && negb (among (i mod 100) [11; 71; 91]))
                  || ((i mod 10 =? 2) && negb (among (i mod 100) [12; 72; 92]))).
(** Cornish *)
Definition wrong_kw : N -> N -> N -> bool :=
  cases (fun i => (20000 <? i) && (i mod 1000 =? 0) && between 1000 (i mod 100000) 20000)
        (fun i => between 1 (i mod 20) 3 || (i mod 1000000 =? 100000)
                  || ((i mod 1000 =? 0) && (between 1000 i 20000 || among (i mod 100000) [40000; 60000; 80000]))).
(** Lithuanian *)
Definition wrong_lt : N -> N -> N -> bool :=
  cases (fun i => (20 <=? i) && (((2 <=? i mod 10) && negb (between 11 (i mod 100) 19)) || (i mod 100 =? 11)))
        (fun i => between 2 i 9).
(** Latvian and Prussian: the fraction digits have a say as well *)
Definition wrong_lv (i v f : N) : bool :=
  if f =? 0 then (20 <=? i) && between 11 (i mod 100) 19
  else
    let one := (f mod 10 =? 1) && negb ((v =? 2) && (f mod 100 =? 11)) in
    let zero := (v =? 2) && between 11 (f mod 100) 19 in
    negb one && (((i mod 10 =? 1) && negb (i mod 100 =? 11))
                 || (negb zero && ((i mod 10 =? 0) || between 11 i 19))).
(** Romanian and Moldavian: only numbers written without fraction digits *)
Definition wrong_ro (i v f : N) : bool := (v =? 0) && (20 <=? i) && between 2 (i mod 100) 19.
(** Maltese *)
Definition wrong_mt : N -> N -> N -> bool :=
  cases (fun i => (20 <=? i) && between 2 (i mod 100) 19) (fun i => between 2 i 19).
(** Cornish, ordinals *)
Definition wrong_kw_ordinal : N -> N -> N -> bool :=
  cases (fun i => (100 <=? i) && between 1 (i mod 20) 4)
        (fun i => (i mod 100 =? 5) || ((i <? 100) && between 1 (i mod 20) 4)).

Definition only_part (p : N -> bool) : N -> N -> N -> bool := cases (fun _ => false) p.

Definition wrong_table (t : pr_type) : list (langid * (N -> N -> N -> bool)) :=
  match t with
  | CARDINAL =>
      [(lang "ar", wrong_ar); (lang "ars", wrong_ar); (lang "be", wrong_be); (lang "br", wrong_br);
       (lang "kw", wrong_kw); (lang "lt", wrong_lt); (lang "lv", wrong_lv); (lang "mo", wrong_ro);
       (lang "mt", wrong_mt); (lang "prg", wrong_lv); (lang "ro", wrong_ro)]
  | ORDINAL =>
      [(lang "kw", wrong_kw_ordinal);
       (lang "be", only_part (fun i => among (i mod 10) [2; 3] && negb (among (i mod 100) [12; 13])));
       (lang "en", only_part (fun i => among (i mod 10) [1; 2; 3] && negb (among (i mod 100) [11; 12; 13])));
       (lang "kk", only_part (fun i => among (i mod 10) [0; 6; 9]));
       (lang "sq", only_part (fun i => (i mod 10 =? 4) && negb (i mod 100 =? 14)));
       (lang "sv", only_part (fun i => among (i mod 10) [1; 2] && negb (among (i mod 100) [11; 12])));
       (lang "tk", only_part (fun i => among (i mod 10) [6; 9]));
       (lang "uk", only_part (fun i => (i mod 10 =? 3) && negb (i mod 100 =? 13)))]
  end.

Definition wrong_number (t : pr_type) (id : langid) (d : decimal) : bool :=
  match List.find (fun e => langid_eqb id (fst e)) (wrong_table t) with
  | Some (_, wrong) => wrong (uts_i d) (uts_v d) (uts_f d)
  | None => false
  end.
